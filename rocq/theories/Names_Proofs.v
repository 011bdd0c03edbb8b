(** Proofs about zero-padded names. *)
From Coq Require Import ZArith List Bool Lia.
From Verif Require Import Base Tle_Model Const_Model Const_Spec.
Import ListNotations.
Open Scope Z_scope.
Local Arguments Z.mul : simpl never.
Local Arguments Z.add : simpl never.
Local Arguments Z.div : simpl never.
Local Arguments Z.modulo : simpl never.
Local Arguments Z.pow : simpl never.

(** The [w]-digit representation. *)
Fixpoint fixed (w : nat) (n : Z) : list Z :=
  match w with O => [] | S w' => fixed w' (n / 10) ++ [48 + n mod 10] end.
Lemma fixed_length w : forall n, length (fixed w n) = w.
Proof. induction w; intro n; simpl; auto. rewrite app_length, IHw. simpl. lia. Qed.

Lemma str_lt_app_l x a b : str_lt a b -> str_lt (x ++ a) (x ++ b).
Proof. intro H. induction x; simpl; auto. now constructor. Qed.
Lemma str_lt_app_r a b x y : length a = length b -> str_lt a b -> str_lt (a ++ x) (b ++ y).
Proof.
  intros L H. revert L. induction H; intro L; simpl in *; try discriminate; [now apply lt_head|apply lt_tail; auto].
Qed.
Lemma str_lt_irrefl a : ~ str_lt a a.
Proof. intro H. remember a as b in H at 2. revert Heqb. induction H; intro E; inversion E; subst; try lia; auto. Qed.

Lemma fixed_lt w : forall a b, 0 <= a -> a < b -> b < 10 ^ Z.of_nat w -> str_lt (fixed w a) (fixed w b).
Proof.
  induction w; intros a b Ha Hab Hb.
  - change (10 ^ Z.of_nat 0) with 1 in Hb. lia.
  - rewrite Nat2Z.inj_succ, Z.pow_succ_r in Hb by lia. simpl.
    assert (DB : b / 10 < 10 ^ Z.of_nat w) by (apply Z.div_lt_upper_bound; lia).
    assert (LE : a / 10 <= b / 10) by (apply Z.div_le_mono; lia).
    destruct (Z.eq_dec (a / 10) (b / 10)) as [E|E].
    + rewrite E. apply str_lt_app_l. constructor.
      pose proof (Z.div_mod a 10). pose proof (Z.div_mod b 10). lia.
    + apply str_lt_app_r; [now rewrite !fixed_length|]. apply IHw; [apply Z.div_pos; lia|lia|assumption].
Qed.

Lemma fixed_digits w : forall n, Forall (fun c => 48 <= c <= 57) (fixed w n).
Proof.
  induction w; intro n; simpl; [constructor|]. apply Forall_app. split; [apply IHw|]. constructor; [|constructor].
  pose proof (Z.mod_pos_bound n 10). lia.
Qed.
Lemma fold_snoc {A B} (f : A -> B -> A) l x v : fold_left f (l ++ [x]) v = f (fold_left f l v) x.
Proof. now rewrite fold_left_app. Qed.
Lemma fixed_value w : forall n, 0 <= n < 10 ^ Z.of_nat w -> decimal_value (fixed w n) = n.
Proof.
  unfold decimal_value. induction w; intros n H.
  - change (10 ^ Z.of_nat 0) with 1 in H. simpl. lia.
  - rewrite Nat2Z.inj_succ, Z.pow_succ_r in H by lia. simpl. rewrite fold_snoc, IHw.
    + pose proof (Z.div_mod n 10). lia.
    + split; [apply Z.div_pos; lia|apply Z.div_lt_upper_bound; lia].
Qed.

(** The shortest representation, padded. *)
Lemma fixed_zero w : fixed w 0 = repeat 48 w.
Proof.
  induction w; simpl; auto. change (0 / 10) with 0. rewrite IHw. change (48 + 0 mod 10) with 48.
  change [48] with (repeat 48 1). rewrite <- repeat_app, Nat.add_comm. reflexivity.
Qed.
Lemma fixed_one w n : 0 <= n < 10 -> fixed (S w) n = repeat 48 w ++ [48 + n].
Proof. intro H. simpl. rewrite Z.div_small, Z.mod_small, fixed_zero by lia. reflexivity. Qed.

Lemma dec_fuel_fixed f : forall n w, 0 <= n < 10 ^ Z.of_nat f -> (0 < f)%nat ->
  let s := dec_fuel f n in
  (0 < length s)%nat /\ (length s <= f)%nat /\ n < 10 ^ Z.of_nat (length s) /\ ((length s <= w)%nat -> repeat 48 (w - length s) ++ s = fixed w n).
Proof.
  induction f; intros n w H Hf; [lia|]. cbv zeta. simpl. destruct (Z.ltb_spec n 10).
  - simpl. split; [lia|]. split; [lia|]. split; [change (10 ^ Z.of_nat 1) with 10; lia|]. intro Hw. destruct w as [|w]; [lia|]. rewrite fixed_one by lia. simpl. now rewrite Nat.sub_0_r.
  - rewrite Nat2Z.inj_succ, Z.pow_succ_r in H by lia.
    assert (B : 0 <= n / 10 < 10 ^ Z.of_nat f) by (split; [apply Z.div_pos; lia|apply Z.div_lt_upper_bound; lia]).
    assert (F0 : (0 < f)%nat).
    { destruct f; [|lia]. change (10 ^ Z.of_nat 0) with 1 in H. lia. }
    specialize (IHf (n / 10) (w - 1)%nat B F0). cbv zeta in IHf. destruct IHf as (A1 & A2 & A3 & A4).
    rewrite app_length. simpl. split; [lia|]. split; [lia|]. split.
    + rewrite Nat2Z.inj_add, Z.pow_add_r by lia. change (10 ^ Z.of_nat 1) with 10. pose proof (Z.div_mod n 10). pose proof (Z.mod_pos_bound n 10). lia.
    + intro Hw. destruct w as [|w]; [lia|]. simpl fixed. rewrite app_assoc. f_equal.
      replace (S w - 1)%nat with w in A4 by lia. rewrite <- A4 by lia. f_equal. f_equal. lia.
Qed.

Lemma py_str_fixed n w : 0 <= n -> let s := py_str n in
  (0 < length s)%nat /\ n < 10 ^ Z.of_nat (length s) /\ ((length s <= w)%nat -> zfill w s = fixed w n).
Proof.
  intro H. cbv zeta. unfold py_str. destruct (Z.ltb_spec n 0); [lia|].
  set (f := S (Z.to_nat (Z.log2 n))).
  assert (F : 0 <= n < 10 ^ Z.of_nat f).
  { split; [assumption|]. destruct (Z.eq_dec n 0) as [->|]; [apply Z.pow_pos_nonneg; lia|].
    pose proof (Z.log2_spec n ltac:(lia)). pose proof (Z.log2_nonneg n). unfold f. rewrite Nat2Z.inj_succ, Z2Nat.id by lia.
    apply Z.lt_le_trans with (2 ^ Z.succ (Z.log2 n)); [lia|]. apply Z.pow_le_mono_l. lia. }
  destruct (dec_fuel_fixed f n w F ltac:(unfold f; lia)) as (A1 & _ & A3 & A4).
  split; [assumption|]. split; [assumption|]. intro Hw. specialize (A4 Hw).
  unfold zfill. destruct (dec_fuel f n) as [|c r] eqn:E; [simpl in A1; lia|].
  assert (Hc : 48 <= c <= 57).
  { pose proof (fixed_digits w n) as D. rewrite <- A4 in D. apply Forall_app in D as [_ D]. now inversion D. }
  destruct (Z.eqb_spec c 43); [lia|]. destruct (Z.eqb_spec c 45); [lia|]. exact A4.
Qed.

Lemma py_str_value n : 0 <= n -> decimal_value (py_str n) = n.
Proof.
  intro H. destruct (py_str_fixed n (length (py_str n)) H) as (A1 & A2 & A3). specialize (A3 (le_n _)).
  assert (Z : zfill (length (py_str n)) (py_str n) = py_str n).
  { unfold zfill. rewrite Nat.sub_diag. destruct (py_str n) as [|c r]; [reflexivity|]. simpl. destruct (_ || _); reflexivity. }
  rewrite <- Z at 1. rewrite A3. apply fixed_value. lia.
Qed.

Lemma py_str_short a n : 0 <= a <= n -> (length (py_str a) <= length (py_str n))%nat.
Proof.
  intro H. destruct (py_str_fixed a 0 ltac:(lia)) as (A1 & A2 & _). destruct (py_str_fixed n 0 ltac:(lia)) as (N1 & N2 & _).
  (* the shortest representation: n >= 10^(len-1) unless single digit *)
  assert (G : forall f m, 0 <= m < 10 ^ Z.of_nat f -> (0 < f)%nat -> (length (dec_fuel f m) = 1)%nat \/ 10 ^ Z.of_nat (length (dec_fuel f m) - 1) <= m).
  { induction f; intros m Hm Hf; [lia|]. simpl. destruct (Z.ltb_spec m 10); [left; reflexivity|right].
    rewrite Nat2Z.inj_succ, Z.pow_succ_r in Hm by lia.
    assert (B : 0 <= m / 10 < 10 ^ Z.of_nat f) by (split; [apply Z.div_pos; lia|apply Z.div_lt_upper_bound; lia]).
    assert (F0 : (0 < f)%nat).
    { destruct f; [|lia]. change (10 ^ Z.of_nat 0) with 1 in Hm. lia. }
    destruct (dec_fuel_fixed f (m / 10) 0 B F0) as (L1 & _ & _).
    rewrite app_length. simpl. replace (length (dec_fuel f (m / 10)) + 1 - 1)%nat with (length (dec_fuel f (m / 10))) by lia.
    pose proof (Z.div_mod m 10). pose proof (Z.mod_pos_bound m 10).
    destruct (IHf (m / 10) B F0) as [E|E].
    - rewrite E. change (10 ^ Z.of_nat 1) with 10. lia.
    - replace (length (dec_fuel f (m / 10))) with (S (length (dec_fuel f (m / 10)) - 1))%nat by lia.
      rewrite Nat2Z.inj_succ, Z.pow_succ_r by lia. lia. }
  assert (G' : forall m, 0 <= m -> (length (py_str m) = 1)%nat \/ 10 ^ Z.of_nat (length (py_str m) - 1) <= m).
  { intros m Hm. unfold py_str. destruct (Z.ltb_spec m 0); [lia|]. apply G; [|lia].
    split; [assumption|]. destruct (Z.eq_dec m 0) as [->|]; [apply Z.pow_pos_nonneg; lia|].
    pose proof (Z.log2_spec m ltac:(lia)). pose proof (Z.log2_nonneg m). rewrite Nat2Z.inj_succ, Z2Nat.id by lia.
    apply Z.lt_le_trans with (2 ^ Z.succ (Z.log2 m)); [lia|]. apply Z.pow_le_mono_l. lia. }
  destruct (G' a ltac:(lia)) as [E|E]; [lia|].
  destruct (le_gt_dec (length (py_str a)) (length (py_str n))) as [|N]; [assumption|exfalso].
  assert (10 ^ Z.of_nat (length (py_str n)) <= 10 ^ Z.of_nat (length (py_str a) - 1)) by (apply Z.pow_le_mono_r; lia). lia.
Qed.

Lemma zero_pad_lemma name n a : 0 <= a <= n ->
  exists d, zero_pad name n a = name ++ [32] ++ d /\ length d = length (py_str n)
    /\ Forall (fun c => 48 <= c <= 57) d /\ decimal_value d = a.
Proof.
  intro H. exists (fixed (length (py_str n)) a).
  destruct (py_str_fixed a (length (py_str n)) ltac:(lia)) as (_ & _ & A). destruct (py_str_fixed n 0 ltac:(lia)) as (_ & N & _).
  unfold zero_pad. rewrite A by now apply py_str_short.
  split; [reflexivity|]. split; [apply fixed_length|]. split; [apply fixed_digits|]. apply fixed_value. lia.
Qed.
Lemma zero_pad_order name n a b : 0 <= a -> a < b -> b <= n ->
  length (zero_pad name n a) = length (zero_pad name n b)
  /\ str_lt (zero_pad name n a) (zero_pad name n b) /\ zero_pad name n a <> zero_pad name n b.
Proof.
  intros H1 H2 H3. destruct (py_str_fixed n 0 ltac:(lia)) as (_ & N & _).
  destruct (py_str_fixed a (length (py_str n)) ltac:(lia)) as (_ & _ & A).
  destruct (py_str_fixed b (length (py_str n)) ltac:(lia)) as (_ & _ & B).
  assert (L : str_lt (zero_pad name n a) (zero_pad name n b)).
  { unfold zero_pad. apply str_lt_app_l, str_lt_app_l. rewrite A, B by (apply py_str_short; lia). apply fixed_lt; lia. }
  split; [|split; [assumption|intro E; rewrite E in L; exact (str_lt_irrefl _ L)]].
  unfold zero_pad. rewrite A, B by (apply py_str_short; lia). now rewrite !app_length, !fixed_length.
Qed.
