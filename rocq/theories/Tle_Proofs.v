(** Proofs about two-line elements. *)
From Coq Require Import String Ascii ZArith QArith List Bool Lia Sorting.Sorted Lqa Zdiv.
From Verif Require Import Base BaseFacts Tle_Model Tle_Spec.
Import ListNotations.
Open Scope Z_scope.
Local Arguments Z.mul : simpl never.
Local Arguments Z.add : simpl never.

(** ** Fixed-width regular expressions *)
Fixpoint prefix (cs : list (Z -> bool)) (s : pystr) : bool :=
  match cs, s with
  | [], _ => true
  | p :: cs', c :: s' => p c && prefix cs' s'
  | _ :: _, [] => false
  end.
Definition fixed (r : regex) (cs : list (Z -> bool)) : Prop :=
  forall s, run r s = if prefix cs s then [skipn (length cs) s] else [].

Lemma prefix_app a b s :
  prefix (a ++ b) s = prefix a s && prefix b (skipn (length a) s).
Proof.
  revert s. induction a as [|p a IH]; intro s; [reflexivity|].
  destruct s as [|c s]; [reflexivity|]. simpl. rewrite IH. now rewrite andb_assoc.
Qed.
Lemma skipn_add {A} n m (l : list A) : skipn (n + m) l = skipn m (skipn n l).
Proof. revert l. induction n as [|n IH]; intro l; [reflexivity|]. destruct l; [now rewrite !skipn_nil|apply IH]. Qed.

Lemma fixed_eps : fixed Eps [].
Proof. intro s. reflexivity. Qed.
Lemma fixed_cls p : fixed (Cls p) [p].
Proof. intros [|c s]; [reflexivity|]. simpl. now rewrite andb_true_r. Qed.
Lemma fixed_seq a b x y : fixed a x -> fixed b y -> fixed (Seq a b) (x ++ y).
Proof.
  intros Ha Hb s. simpl. rewrite Ha, prefix_app.
  destruct (prefix x s); [|reflexivity]. simpl. rewrite app_nil_r, Hb, app_length, skipn_add. reflexivity.
Qed.

(** The column classes of a regular expression without alternation. *)
Fixpoint classes (r : regex) : list (Z -> bool) :=
  match r with
  | Eps => [] | Cls p => [p] | Seq a b => classes a ++ classes b | Alt _ _ => []
  end.
Fixpoint no_alt (r : regex) : bool :=
  match r with Alt _ _ => false | Seq a b => no_alt a && no_alt b | _ => true end.
Lemma fixed_classes r : no_alt r = true -> fixed r (classes r).
Proof.
  induction r; simpl; intro H; try discriminate.
  - apply fixed_eps. - apply fixed_cls.
  - apply andb_true_iff in H as [H1 H2]. apply fixed_seq; auto.
Qed.

(** Prefix of classes = every column in its class. *)
Lemma prefix_spec cs s :
  prefix cs s = true <->
  forall k p, nth_error cs k = Some p -> exists c, nth_error s k = Some c /\ p c = true.
Proof.
  revert s. induction cs as [|q cs IH]; intro s.
  - split; [intros _ [|k] p H; discriminate|reflexivity].
  - destruct s as [|c s]; simpl.
    + split; [discriminate|]. intro H. destruct (H 0%nat q eq_refl) as [c [E _]]. discriminate.
    + rewrite andb_true_iff, IH. split.
      * intros [H1 H2] [|k] p E; simpl in E; [injection E as <-; exists c; auto|apply H2; assumption].
      * intro H. split.
        -- destruct (H 0%nat q eq_refl) as [c' [E Hc]]. injection E as <-. assumption.
        -- intros k p E. apply (H (S k) p E).
Qed.

Lemma nth_error_skipn_add {A} n (l : list A) k : nth_error (skipn n l) k = nth_error l (n + k).
Proof. revert l. induction n; intros [|x l]; simpl; auto. now destruct k. Qed.

(** [all_cols off cs l]: column [off+k] of [l] is in class [k]. *)
Fixpoint all_cols (off : nat) (cs : list (Z -> bool)) (l : pystr) : Prop :=
  match cs with
  | [] => True
  | p :: r => col l off (fun c => p c = true) /\ all_cols (S off) r l
  end.
Lemma prefix_all_cols cs off l : prefix cs (skipn off l) = true <-> all_cols off cs l.
Proof.
  revert off. induction cs as [|p cs IH]; intro off; simpl; [tauto|].
  rewrite <- IH. unfold col. replace (nth_error l off) with (nth_error (skipn off l) 0)
    by (rewrite nth_error_skipn_add; f_equal; lia).
  replace (skipn (S off) l) with (skipn 1 (skipn off l)) by (rewrite <- skipn_add; f_equal; lia).
  destruct (skipn off l) as [|c s]; simpl.
  - split; [discriminate|]. intros [[c [E _]] _]. discriminate.
  - rewrite andb_true_iff. split.
    + intros [H1 H2]. split; [exists c; auto|assumption].
    + intros [[c' [E H1]] H2]. injection E as <-. auto.
Qed.

Lemma re_match_line2 l :
  re_match line_2_pattern l = true <-> all_cols 0 (classes line_2_pattern) l.
Proof.
  unfold re_match. rewrite (fixed_classes line_2_pattern eq_refl l).
  rewrite <- (prefix_all_cols _ 0). simpl skipn at 2.
  change (skipn 0 l) with l.
  destruct (prefix _ l); split; auto; discriminate.
Qed.

Lemma re_match_line1 l :
  re_match line_1_pattern l = true <->
  all_cols 0 (classes line_1_head) l
  /\ (all_cols 33 (classes ndot_1) l \/ all_cols 33 (classes ndot_2) l)
  /\ all_cols 43 (classes line_1_tail) l.
Proof.
  unfold re_match, line_1_pattern. cbn [run].
  rewrite (fixed_classes line_1_head eq_refl l).
  rewrite <- !prefix_all_cols. change (skipn 0 l) with l.
  destruct (prefix (classes line_1_head) l); [|simpl; intuition discriminate].
  replace (skipn (length (classes line_1_head)) l) with (skipn 33 l) by reflexivity.
  cbn [flat_map]. rewrite app_nil_r.
  rewrite (fixed_classes ndot_1 eq_refl), (fixed_classes ndot_2 eq_refl).
  change (length (classes ndot_1)) with 10%nat. change (length (classes ndot_2)) with 10%nat.
  rewrite <- (skipn_add 33 10 l). change (33 + 10)%nat with 43%nat.
  pose proof (fixed_classes line_1_tail eq_refl (skipn 43 l)) as HT.
  destruct (prefix (classes ndot_1) (skipn 33 l)), (prefix (classes ndot_2) (skipn 33 l));
    cbn [flat_map app]; rewrite ?HT; destruct (prefix (classes line_1_tail) (skipn 43 l));
    simpl; intuition discriminate.
Qed.

(** ** Classes against their specification *)
Ltac cls := repeat match goal with |- context [between ?a ?b ?c] => unfold between end;
  rewrite ?orb_true_iff, ?andb_true_iff, ?Z.eqb_eq, ?Z.leb_le; unfold
   blank_or_digit, any_sign, catalog_lead, blank, digit, upper, plus, minus, point; lia.
Lemma p_bd_spec c : p_bd c = true <-> blank_or_digit c.
Proof. unfold p_bd. cls. Qed.
Lemma p_cat_spec c : p_cat c = true <-> catalog_lead c.
Proof. unfold p_cat. cls. Qed.
Lemma p_AZ_spec c : p_AZ c = true <-> upper c.
Proof. unfold p_AZ. cls. Qed.
Lemma p_bAZ_spec c : p_bAZ c = true <-> blank c \/ upper c.
Proof. unfold p_bAZ. cls. Qed.
Lemma p_bsign_spec c : p_bsign c = true <-> any_sign c.
Proof. unfold p_bsign. cls. Qed.
Lemma p_sign_spec c : p_sign c = true <-> plus c \/ minus c.
Proof. unfold p_sign. cls. Qed.
Lemma p_b0sign_spec c : p_b0sign c = true <-> any_sign c \/ c = 48.
Proof. unfold p_b0sign. cls. Qed.
Lemma eqb_spec' k c : Z.eqb k c = true <-> c = k.
Proof. rewrite Z.eqb_eq. split; auto. Qed.

Lemma col_ext l k (P Q : Z -> Prop) : (forall c, P c <-> Q c) -> col l k P <-> col l k Q.
Proof. intro H. unfold col. split; intros [c [E Hc]]; exists c; split; auto; now apply H. Qed.

Lemma cols_one l a P : cols l a a P <-> col l a P.
Proof. unfold cols. split; [intro H; apply H; lia|]. intros H k Hk. now replace k with a by lia. Qed.
Lemma cols_cons l a b P : (a < b)%nat -> cols l a b P <-> col l a P /\ cols l (S a) b P.
Proof.
  intro Hab. unfold cols. split.
  - intro H. split; [apply H; lia|]. intros k Hk. apply H. lia.
  - intros [H1 H2] k Hk. destruct (Nat.eq_dec k a) as [->|Hne]; [assumption|]. apply H2. lia.
Qed.

Lemma all_cols_app a b off l : all_cols off (a ++ b) l <-> all_cols off a l /\ all_cols (off + length a) b l.
Proof.
  revert off. induction a as [|p a IH]; intro off; simpl.
  - rewrite Nat.add_0_r. tauto.
  - rewrite IH. replace (off + S (length a))%nat with (S off + length a)%nat by lia. tauto.
Qed.
Lemma all_cols_repeat n p off l :
  all_cols off (repeat p (S n)) l <-> cols l off (off + n) (fun c => p c = true).
Proof.
  revert off. induction n as [|n IH]; intro off.
  - simpl. rewrite Nat.add_0_r, cols_one. tauto.
  - change (repeat p (S (S n))) with (p :: repeat p (S n)). cbn [all_cols]. rewrite IH.
    rewrite (cols_cons l off (off + S n)) by lia.
    replace (S off + n)%nat with (off + S n)%nat by lia. tauto.
Qed.
Fixpoint blocks_cols (off : nat) (bs : list (nat * (Z -> bool))) (l : pystr) : Prop :=
  match bs with
  | [] => True
  | (n, p) :: r => cols l off (off + n) (fun c => p c = true) /\ blocks_cols (off + S n) r l
  end.
Lemma all_cols_blocks bs off l :
  all_cols off (flat_map (fun b => repeat (snd b) (S (fst b))) bs) l <-> blocks_cols off bs l.
Proof.
  revert off. induction bs as [|[n p] bs IH]; intro off; [simpl; tauto|].
  cbn [flat_map fst snd blocks_cols]. rewrite all_cols_app, all_cols_repeat, IH, repeat_length. tauto.
Qed.
Lemma cols_ext l a b (P Q : Z -> Prop) : (forall c, P c <-> Q c) -> cols l a b P <-> cols l a b Q.
Proof. intro H. unfold cols. split; intros F k Hk; [apply (col_ext l k P Q H)|apply (col_ext l k P Q H)]; auto. Qed.

Definition blocks2 : list (nat * (Z -> bool)) :=
  [(0, Z.eqb 50); (0, Z.eqb 32); (0, p_cat); (3, p_bd); (0, Z.eqb 32);
   (2, p_bd); (0, Z.eqb 46); (3, p_bd); (0, Z.eqb 32); (2, p_bd); (0, Z.eqb 46); (3, p_bd); (0, Z.eqb 32);
   (6, p_bd); (0, Z.eqb 32);
   (2, p_bd); (0, Z.eqb 46); (3, p_bd); (0, Z.eqb 32); (2, p_bd); (0, Z.eqb 46); (3, p_bd); (0, Z.eqb 32);
   (1, p_bd); (0, Z.eqb 46); (12, p_bd); (0, p_bd)]%nat.
Definition blocks1h : list (nat * (Z -> bool)) :=
  [(0, Z.eqb 49); (0, Z.eqb 32); (0, p_cat); (3, p_bd); (0, p_AZ); (0, Z.eqb 32); (4, p_bd); (2, p_bAZ);
   (0, Z.eqb 32); (4, p_bd); (0, Z.eqb 46); (7, p_bd); (0, Z.eqb 32)]%nat.
Definition blocks1t : list (nat * (Z -> bool)) :=
  [(0, Z.eqb 32); (0, p_bsign); (4, p_bd); (0, p_sign); (0, p_bd); (0, Z.eqb 32);
   (0, p_bsign); (4, p_bd); (0, p_sign); (0, p_bd); (0, Z.eqb 32);
   (0, p_bd); (0, Z.eqb 32); (3, p_bd); (0, p_bd)]%nat.
Definition blocks_n1 : list (nat * (Z -> bool)) := [(0, p_b0sign); (0, Z.eqb 46); (7, p_bd)]%nat.
Definition blocks_n2 : list (nat * (Z -> bool)) := [(0, Z.eqb 32); (0, p_bsign); (0, Z.eqb 46); (6, p_bd)]%nat.

Lemma eq_code z c : (Z.eqb z c) = true <-> (z = c).
Proof. apply Z.eqb_eq. Qed.
Lemma blank_code c : Z.eqb 32 c = true <-> blank c.
Proof. unfold blank. rewrite Z.eqb_eq. split; auto. Qed.
Lemma point_code c : Z.eqb 46 c = true <-> point c.
Proof. unfold point. rewrite Z.eqb_eq. split; auto. Qed.
#[local] Hint Resolve eq_code blank_code point_code p_bd_spec p_cat_spec p_AZ_spec p_bAZ_spec p_bsign_spec
  p_sign_spec p_b0sign_spec : cls.

Ltac crush := repeat match goal with H : _ /\ _ |- _ => destruct H end.
Ltac block_col :=
  match goal with
  | H : cols ?l ?a ?b (fun c => ?p c = true) |- cols ?l ?a ?b ?P =>
      refine (proj1 (cols_ext l a b _ P _) H); solve [auto with cls]
  | H : cols ?l ?a ?a (fun c => ?p c = true) |- col ?l ?a ?P =>
      apply cols_one; refine (proj1 (cols_ext l a a _ P _) H); solve [auto with cls]
  | H : cols ?l ?a ?b ?P |- cols ?l ?a ?b (fun c => ?p c = true) =>
      refine (proj2 (cols_ext l a b _ P _) H); solve [auto with cls]
  | H : col ?l ?a ?P |- cols ?l ?a ?a (fun c => ?p c = true) =>
      apply cols_one; refine (proj2 (col_ext l a _ P _) H); solve [auto with cls]
  end.

Lemma line2_iff l :
  length l = 69%nat /\ re_match line_2_pattern l = true
  <-> line2_format l /\ col l 68 blank_or_digit.
Proof.
  rewrite re_match_line2.
  change (classes line_2_pattern) with (flat_map (fun b => repeat (snd b) (S (fst b))) blocks2).
  rewrite all_cols_blocks. cbn [blocks_cols blocks2 Nat.add].
  split.
  - intro H. crush. split; [|block_col]. split; try assumption.
    + block_col.
    + repeat constructor; block_col.
    + split; block_col.
    + unfold angle_cols; cbn [Nat.add]; repeat constructor; block_col.
    + block_col.
    + repeat split; block_col.
  - intros [[L N B C A E M] K]. unfold angle_cols in *. cbn [Nat.add] in *.
    repeat match goal with H : Forall _ (_ :: _) |- _ => apply Forall_cons_iff in H as [? ?] end.
    crush. repeat split; try assumption; block_col.
Qed.

Lemma line1_iff l :
  length l = 69%nat /\ re_match line_1_pattern l = true
  <-> line1_format l /\ col l 68 blank_or_digit.
Proof.
  rewrite re_match_line1.
  change (classes line_1_head) with (flat_map (fun b => repeat (snd b) (S (fst b))) blocks1h).
  change (classes line_1_tail) with (flat_map (fun b => repeat (snd b) (S (fst b))) blocks1t).
  change (classes ndot_1) with (flat_map (fun b => repeat (snd b) (S (fst b))) blocks_n1).
  change (classes ndot_2) with (flat_map (fun b => repeat (snd b) (S (fst b))) blocks_n2).
  rewrite !all_cols_blocks. cbn [blocks_cols blocks1h blocks1t blocks_n1 blocks_n2 Nat.add].
  split.
  - intros (L & H & N & T). crush. split; [|block_col]. split; try assumption.
    + block_col.
    + repeat constructor; block_col.
    + split; block_col.
    + block_col.
    + repeat split; block_col.
    + repeat split; block_col.
    + destruct N as [N|N]; crush; [left|right]; repeat split; block_col.
    + repeat split; block_col.
    + repeat split; block_col.
    + block_col.
    + block_col.
  - intros [[L N B C A D E ND N2 BS TY EL] K].
    repeat match goal with H : Forall _ (_ :: _) |- _ => apply Forall_cons_iff in H as [? ?] end.
    crush. split; [assumption|]. split; [repeat split; try assumption; block_col|].
    split.
    + destruct ND as [ND|ND]; crush; [left|right]; repeat split; block_col.
    + repeat split; try assumption; block_col.
Qed.

(** ** Checksum *)
Lemma fold_weight l a : fold_left (fun a c => a + weight c) l a = a + fold_left (fun a c => a + weight c) l 0.
Proof.
  revert a. induction l as [|c l IH]; intro a; simpl; [lia|].
  rewrite IH, (IH (0 + weight c)). lia.
Qed.
Lemma column_sum_weight n l : fold_left (fun a c => a + weight c) (firstn n l) 0 = column_sum n l.
Proof.
  revert l. induction n as [|n IH]; intros [|c l]; try reflexivity.
  simpl. rewrite fold_weight, IH. unfold weight, is_digit. reflexivity.
Qed.

Lemma py_int_digit c : is_digit c = true -> py_int [c] = Ok (c - 48).
Proof.
  unfold is_digit. intro H. apply andb_true_iff in H as [H1 H2]. apply Z.leb_le in H1, H2.
  unfold py_int, strip. cbn [lstrip].
  destruct (Z.eqb_spec c 32); [lia|]. cbn [rev app lstrip].
  destruct (Z.eqb_spec c 32); [lia|]. cbn [rev app split_sign].
  destruct (Z.eqb_spec c 45); [lia|]. destruct (Z.eqb_spec c 43); [lia|].
  cbn [digits]. unfold is_digit.
  destruct (Z.leb_spec 48 c); [|lia]. destruct (Z.leb_spec c 57); [|lia]. cbn [andb].
  reflexivity.
Qed.
Lemma py_int_blank c : c = 32 -> py_int [c] = Raise ValueError.
Proof. intros ->. reflexivity. Qed.

(** The check on the last column of one line. *)
Lemma check_ok l : length l = 69%nat -> col l 68 blank_or_digit ->
  bind (bind (index 68 l) (fun c => py_int [c])) (fun k => guard (negb (k =? checksum l))) = Ok tt
  <-> checksum_ok l.
Proof.
  intros L [c [E Hc]]. unfold index. rewrite E. cbn [bind].
  unfold checksum, checksum_ok. rewrite column_sum_weight.
  destruct Hc as [Hb|Hd].
  - rewrite py_int_blank by exact Hb. cbn [bind]. split; [discriminate|].
    unfold blank in Hb. intros [d [E' [Hd _]]]. rewrite E in E'. injection E' as ->. lia.
  - unfold digit in Hd. rewrite py_int_digit.
    2:{ unfold is_digit. apply andb_true_iff. split; apply Z.leb_le; lia. }
    cbn [bind]. unfold guard. destruct (Z.eqb_spec (c - 48) (column_sum 68 l mod 10)) as [Ek|Nk]; cbn [negb].
    + split; [|reflexivity]. intros _. exists (c - 48). split; [rewrite E; f_equal; lia|].
      split; [lia|]. exists (column_sum 68 l / 10). rewrite Ek. apply Z.div_mod. lia.
    + split; [discriminate|]. intros [d [E' [Hd' [q Hq]]]]. exfalso. apply Nk.
      rewrite E in E'. injection E' as ->. rewrite Hq.
      replace (10 * q + d) with (d + q * 10) by lia. rewrite Z_mod_plus_full, Z.mod_small; lia.
Qed.

Lemma checksum_col l : checksum_ok l -> col l 68 blank_or_digit.
Proof. intros [d [E [H _]]]. exists (48 + d). split; [assumption|]. right. unfold digit. lia. Qed.

(** Validators only raise ValueError on pairs. *)
Definition only_ve {A} (x : pyres A) : Prop := match x with Raise e => e = ValueError | Ok _ => True end.
Lemma only_ve_bind {A B} (x : pyres A) (f : A -> pyres B) :
  only_ve x -> (forall a, x = Ok a -> only_ve (f a)) -> only_ve (bind x f).
Proof. destruct x; simpl; auto. Qed.
Lemma only_ve_guard b : only_ve (guard b).
Proof. destruct b; reflexivity. Qed.
Lemma only_ve_int s : only_ve (py_int s).
Proof.
  unfold py_int. destruct (split_sign (strip s)) as [n r]. destruct r; [reflexivity|].
  destruct (digits 0 (z :: r)); reflexivity || exact I.
Qed.

Lemma valid_pair_ve a b : only_ve (valid_pair a b).
Proof.
  unfold valid_pair.
  apply only_ve_bind; [apply only_ve_guard|]. intros [] H1.
  apply only_ve_bind; [apply only_ve_guard|]. intros [] H2.
  apply only_ve_bind; [apply only_ve_guard|]. intros _ _.
  apply only_ve_bind; [apply only_ve_guard|]. intros _ _.
  assert (La : length a = 69%nat).
  { destruct (Nat.eqb_spec (length a) 69); [assumption|discriminate]. }
  assert (Lb : length b = 69%nat).
  { destruct (Nat.eqb_spec (length b) 69); [assumption|discriminate]. }
  assert (I : forall l : pystr, length l = 69%nat -> exists c, index 68 l = Ok c).
  { intros l L. unfold index. destruct (nth_error l 68) eqn:E; [eauto|].
    apply nth_error_None in E. lia. }
  destruct (I a La) as [ca Ea], (I b Lb) as [cb Eb].
  apply only_ve_bind; [rewrite Ea; apply only_ve_int|]. intros k _.
  apply only_ve_bind; [apply only_ve_guard|]. intros _ _.
  apply only_ve_bind; [rewrite Eb; apply only_ve_int|]. intros k2 _.
  apply only_ve_guard.
Qed.

Lemma bind_ok {A B} (x : pyres A) (f : A -> pyres B) b :
  bind x f = Ok b <-> exists a, x = Ok a /\ f a = Ok b.
Proof.
  destruct x as [a|e]; simpl; split.
  - eauto. - intros [a' [[= <-] H]]. assumption. - discriminate. - intros [a [E _]]. discriminate.
Qed.
Lemma guard_ok b x : guard b = Ok x <-> b = false.
Proof. destruct b, x; simpl; split; congruence. Qed.

Lemma valid_pair_ok a b :
  valid_pair a b = Ok tt <->
  line1_format a /\ line2_format b /\ checksum_ok a /\ checksum_ok b.
Proof.
  unfold valid_pair. rewrite bind_ok. split.
  - intros [[] [Ha H]]. apply guard_ok in Ha.
    apply bind_ok in H as [[] [Hb H]]. apply guard_ok in Hb.
    apply bind_ok in H as [[] [Ma H]]. apply guard_ok in Ma.
    apply bind_ok in H as [[] [Mb H]]. apply guard_ok in Mb.
    apply negb_false_iff in Ha, Hb, Ma, Mb. apply Nat.eqb_eq in Ha, Hb.
    destruct (proj1 (line1_iff a) (conj Ha Ma)) as [Fa Ca].
    destruct (proj1 (line2_iff b) (conj Hb Mb)) as [Fb Cb].
    apply bind_ok in H as [ka [Ka H]]. apply bind_ok in H as [[] [Ga H]].
    assert (CA : checksum_ok a).
    { apply (check_ok a Ha Ca). rewrite Ka. exact Ga. }
    apply (check_ok b Hb Cb) in H. auto.
  - intros (Fa & Fb & Ka & Kb).
    destruct (proj2 (line1_iff a) (conj Fa (checksum_col a Ka))) as [La Ma].
    destruct (proj2 (line2_iff b) (conj Fb (checksum_col b Kb))) as [Lb Mb].
    exists tt. rewrite La, Lb, Ma, Mb. cbn [Nat.eqb negb guard bind]. split; [reflexivity|].
    pose proof (proj2 (check_ok a La (checksum_col a Ka)) Ka) as HA.
    apply bind_ok in HA as [k [E G]]. rewrite E. cbn [bind]. rewrite G. cbn [bind].
    apply (check_ok b Lb (checksum_col b Kb)). assumption.
Qed.

Lemma is_valid_pairs v : Nat.even (length v) = true ->
  is_valid_tle v = Ok tt <->
  (fix ok v := match v with
     | a :: b :: r => (line1_format a /\ line2_format b /\ checksum_ok a /\ checksum_ok b) /\ ok r
     | _ => True end) v.
Proof.
  remember (length v) as n eqn:En. revert v En.
  induction n as [n IH] using lt_wf_ind. intros [|a [|b r]] En He; simpl.
  - split; auto.
  - subst n. discriminate.
  - rewrite bind_ok, <- valid_pair_ok. rewrite <- (IH (length r)); try reflexivity.
    + split; [intros [[] [H1 H2]]; auto|]. intros [H1 H2]. exists tt. auto.
    + simpl in En. lia.
    + subst n. exact He.
Qed.

Lemma all_le_sorted es : all_le es = true <-> Sorted Z.le es.
Proof.
  induction es as [|a es IH]; [split; auto|].
  destruct es as [|b es].
  - split; [intros _; repeat constructor|reflexivity].
  - change (all_le (a :: b :: es)) with ((a <=? b) && all_le (b :: es)).
    rewrite andb_true_iff, IH, Z.leb_le. split.
    + intros [H1 H2]. constructor; [assumption|]. constructor. assumption.
    + intro H. inversion H as [|? ? H1 H2]; subst. inversion H2; subst. auto.
Qed.

Section Oracle.
Variable epoch : pystr -> pystr -> pyres Z.

Lemma is_valid_epochs v :
  Nat.even (length v) = true ->
  (is_valid_tle v = Ok tt /\ exists es, epochs epoch v = Ok es) <-> exists es, pairs_ok epoch v es.
Proof.
  intro He. split.
  - intros [H [es E]]. exists es. revert es E.
    remember (length v) as n eqn:En. revert v En He H.
    induction n as [n IH] using lt_wf_ind. intros [|a [|b r]] En He H es E.
    + injection E as <-. constructor.
    + subst n; discriminate.
    + simpl in H. apply bind_ok in H as [[] [H1 H2]]. apply valid_pair_ok in H1 as (A1&A2&A3&A4).
      simpl in E. apply bind_ok in E as [e [E1 E]]. apply bind_ok in E as [es' [E2 E]].
      injection E as <-. constructor; auto. apply (IH (length r)); auto; subst; simpl; auto; lia.
  - intros [es H]. induction H as [|a b r e es Fa Fb Ca Cb E H IH].
    + split; [reflexivity|]. exists []. reflexivity.
    + destruct IH as [I1 [es' I2]]; [exact He|]. split.
      * simpl. apply bind_ok. exists tt. split; [apply valid_pair_ok; auto|assumption].
      * exists (e :: es'). simpl. rewrite E, I2. reflexivity.
Qed.

Lemma epochs_pairs v es es' : epochs epoch v = Ok es -> pairs_ok epoch v es' -> es = es'.
Proof.
  intros H P. revert es H. induction P as [|a b r e es' A1 A2 A3 A4 E P IH]; intros es H.
  - injection H as <-. reflexivity.
  - simpl in H. rewrite E in H. simpl in H. apply bind_ok in H as [es2 [E2 H]]. injection H as <-.
    f_equal. apply IH. assumption.
Qed.

Lemma pairs_even v es : pairs_ok epoch v es -> Nat.even (length v) = true.
Proof. induction 1; auto. Qed.

Lemma pydantic_ok {A} (x : pyres A) a : pydantic x = Ok a <-> x = Ok a.
Proof. destruct x as [?|[]]; simpl; split; congruence. Qed.

Lemma construct_iff v w :
  construct_tle epoch v = Ok w <->
  w = v /\ (2 <= length v)%nat /\ exists es, pairs_ok epoch v es /\ Sorted Z.le es.
Proof.
  unfold construct_tle. destruct (Nat.ltb_spec (length v) 2) as [Hl|Hl].
  - split; [discriminate|]. lia.
  - rewrite pydantic_ok, bind_ok. split.
    + intros [[] [HC H]]. apply bind_ok in H as [[] [HV H]]. apply bind_ok in H as [[] [HE H]].
      injection H as <-. split; [reflexivity|]. split; [lia|].
      unfold is_even_length_list in HE. apply guard_ok in HE.
      assert (He : Nat.even (length v) = true) by (rewrite <- Nat.negb_odd, HE; reflexivity).
      unfold is_chronological_tle in HC. apply bind_ok in HC as [es [E G]]. apply guard_ok in G.
      apply negb_false_iff, all_le_sorted in G.
      destruct (proj1 (is_valid_epochs v He)) as [es' P]; [split; eauto|].
      exists es. rewrite (epochs_pairs v es es' E P). split; [assumption|].
      rewrite <- (epochs_pairs v es es' E P). assumption.
    + intros [-> [_ [es [P HS]]]]. pose proof (pairs_even v es P) as He.
      destruct (proj2 (is_valid_epochs v He)) as [HV [es' E]]; [eauto|].
      pose proof (epochs_pairs v es' es E P) as ->.
      exists tt. split.
      * unfold is_chronological_tle. rewrite E. cbn [bind]. apply guard_ok.
        apply negb_false_iff, all_le_sorted. assumption.
      * rewrite HV. cbn [bind]. unfold is_even_length_list. rewrite <- Nat.negb_even, He. reflexivity.
Qed.

(** ** Exceptions *)
Lemma epochs_ve v : Nat.even (length v) = true -> (forall a b, only_ve (epoch a b)) -> only_ve (epochs epoch v).
Proof.
  intros He HO. remember (length v) as n eqn:En. revert v En He.
  induction n as [n IH] using lt_wf_ind. intros [|a [|b r]] En He.
  - exact I.
  - subst n; discriminate.
  - simpl. apply only_ve_bind; [apply HO|]. intros e _.
    apply only_ve_bind; [apply (IH (length r)); auto; subst; simpl; auto; lia|]. intros; exact I.
Qed.
Lemma is_valid_ve v : Nat.even (length v) = true -> only_ve (is_valid_tle v).
Proof.
  intro He. remember (length v) as n eqn:En. revert v En He.
  induction n as [n IH] using lt_wf_ind. intros [|a [|b r]] En He.
  - exact I.
  - subst n; discriminate.
  - simpl. apply only_ve_bind; [apply valid_pair_ve|]. intros _ _.
    apply (IH (length r)); auto; subst; simpl; auto; lia.
Qed.

Lemma construct_total v :
  (forall a b e, epoch a b = Raise e -> e = ValueError) ->
  Nat.even (length v) = true ->
  construct_tle epoch v = Ok v \/ construct_tle epoch v = Raise ValidationError.
Proof.
  intros HO He.
  assert (HO' : forall a b, only_ve (epoch a b)).
  { intros a b. specialize (HO a b). destruct (epoch a b); simpl; auto. }
  destruct (construct_tle epoch v) as [w|e] eqn:E.
  - left. apply construct_iff in E as [-> _]. reflexivity.
  - right. f_equal. unfold construct_tle in E.
    destruct (Nat.ltb (length v) 2); [injection E as <-; reflexivity|].
    assert (V : only_ve (bind (is_chronological_tle epoch v) (fun _ =>
                 bind (is_valid_tle v) (fun _ =>
                 bind (is_even_length_list v) (fun _ => Ok v))))).
    { apply only_ve_bind.
      - unfold is_chronological_tle. apply only_ve_bind; [apply epochs_ve; assumption|].
        intros; apply only_ve_guard.
      - intros _ _. apply only_ve_bind; [apply is_valid_ve; assumption|].
        intros _ _. apply only_ve_bind; [apply only_ve_guard|]. intros; exact I. }
    destruct (bind (is_chronological_tle epoch v) _) as [w|e0]; [discriminate|].
    simpl in V. subst e0. simpl in E. injection E as <-. reflexivity.
Qed.
End Oracle.
