(** Oracles that satisfy the contracts of Export_Spec: a printer, a reader and an epoch. *)
From Coq Require Import String ZArith QArith Qround Reals Qreals List Bool Lra Lia Psatz Sorting.Sorted.
From Verif Require Import Base BaseFacts RBase RFacts Tle_Model Tle_Spec Tle_Proofs Tle_Proofs2 Orbit_Model Orbit_Spec
  Orbit_Proofs Export_Model Export_Spec Export_Proofs Export_Proofs2 Export_Proofs3.
Import ListNotations.
Open Scope Z_scope.

(** ** Digits *)
Definition dg (k : nat) (n : Z) : Z := 48 + (n / 10 ^ Z.of_nat k) mod 10.
Fixpoint dig (w : nat) (n : Z) : pystr := match w with O => [] | S k => dg k n :: dig k n end.
Lemma dg_digit k n : digit (dg k n).
Proof. unfold digit, dg. pose proof (Z.mod_pos_bound (n / 10 ^ Z.of_nat k) 10 ltac:(lia)). lia. Qed.
Lemma dig_length w n : length (dig w n) = w.
Proof. induction w; cbn; congruence. Qed.
Lemma dig_digits w n : Forall digit (dig w n).
Proof. induction w; cbn; [constructor|constructor; [apply dg_digit|assumption]]. Qed.
Lemma positional_dig w n : positional (dig w n) = n mod 10 ^ Z.of_nat w.
Proof.
  induction w as [|w IH]; [cbn; now rewrite Z.mod_1_r|]. cbn [dig positional]. rewrite dig_length, IH. unfold dg.
  rewrite Nat2Z.inj_succ, Z.pow_succ_r by lia. set (p := 10 ^ Z.of_nat w). assert (P : 0 < p) by (apply Z.pow_pos_nonneg; lia).
  replace (10 * p) with (p * 10) by ring. rewrite Z.rem_mul_r by lia. ring.
Qed.
Lemma positional_app a b : positional (a ++ b) = positional a * 10 ^ Z.of_nat (length b) + positional b.
Proof.
  induction a as [|c a IH]; cbn [positional app]; [lia|]. rewrite IH, app_length, Nat2Z.inj_add, Z.pow_add_r by lia. ring.
Qed.
Lemma dig_nonempty w n : (0 < w)%nat -> dig w n <> [].
Proof. destruct w; [lia|discriminate]. Qed.
(** A decimal number of [w] integer and [f] fraction digits. *)
Lemma decimal_dig w f n : (0 < f)%nat -> 0 <= n < 10 ^ Z.of_nat (w + f) ->
  decimal_field (dig w (n / 10 ^ Z.of_nat f) ++ 46 :: dig f n) (inject_Z n / inject_Z (10 ^ Z.of_nat f)).
Proof.
  intros Hf Hn. exists 0%nat, (dig w (n / 10 ^ Z.of_nat f)), (dig f n). split; [reflexivity|]. split.
  { intro E. apply app_eq_nil in E as [_ E]. revert E. now apply dig_nonempty. }
  split; [apply dig_digits|]. split; [apply dig_digits|]. rewrite dig_length, positional_app, !positional_dig, dig_length.
  set (p := 10 ^ Z.of_nat f). assert (P : 0 < p) by (apply Z.pow_pos_nonneg; lia).
  assert (E : (n / p) mod 10 ^ Z.of_nat w = n / p).
  { apply Z.mod_small. split; [apply Z.div_pos; lia|]. apply Z.div_lt_upper_bound; [lia|]. rewrite Nat2Z.inj_add, Z.pow_add_r in Hn by lia. fold p in Hn. lia. }
  rewrite E. replace (n / p * p + n mod p) with n by (pose proof (Z.div_mod n p); lia).
  field. intro K. change 0%Q with (inject_Z 0) in K. apply (proj1 (inject_Z_injective _ _)) in K. lia.
Qed.
Lemma fraction_dig w n : (0 < w)%nat -> 0 <= n < 10 ^ Z.of_nat w -> fraction_field (dig w n) (inject_Z n / inject_Z (10 ^ Z.of_nat w)).
Proof.
  intros Hw Hn. split; [now apply dig_nonempty|]. split; [apply dig_digits|]. rewrite dig_length, positional_dig, Z.mod_small by assumption.
  field. intro K. change 0%Q with (inject_Z 0) in K. apply (proj1 (inject_Z_injective _ _)) in K. assert (0 < 10 ^ Z.of_nat w) by (apply Z.pow_pos_nonneg; lia). lia.
Qed.
Lemma int_dig w n : (0 < w)%nat -> 0 <= n < 10 ^ Z.of_nat w -> int_field (dig w n) n.
Proof.
  intros Hw Hn. exists 0%nat, (dig w n). split; [reflexivity|]. split; [now apply dig_nonempty|]. split; [apply dig_digits|].
  now rewrite positional_dig, Z.mod_small.
Qed.

(** ** Printed numbers *)
Open Scope R_scope.
Definition nearest (f : nat) (x : R) : Z := round_half_even (x * 10 ^ f).
Definition decimal (w f : nat) (n : Z) : pystr := dig w (n / 10 ^ Z.of_nat f)%Z ++ 46%Z :: dig f n.
Definition quot (f : nat) (n : Z) : Q := (inject_Z n / inject_Z (10 ^ Z.of_nat f))%Q.
Lemma pow10_R f : IZR (10 ^ Z.of_nat f) = 10 ^ f.
Proof. rewrite <- pow_IZR. reflexivity. Qed.
Lemma pow10_pos_R f : 0 < 10 ^ f.
Proof. apply pow_lt. lra. Qed.
Lemma inject_nonzero z : (z <> 0)%Z -> ~ (inject_Z z == 0)%Q.
Proof. intros H K. change 0%Q with (inject_Z 0) in K. apply (proj1 (inject_Z_injective _ _)) in K. contradiction. Qed.
Lemma Q2R_inject z : Q2R (inject_Z z) = IZR z.
Proof. unfold Q2R, inject_Z. cbn. lra. Qed.
Lemma Q2R_quot f n : Q2R (quot f n) = IZR n / 10 ^ f.
Proof.
  unfold quot. rewrite Q2R_div; [now rewrite !Q2R_inject, pow10_R|]. apply inject_nonzero. pose proof (Z.pow_pos_nonneg 10 (Z.of_nat f)). lia.
Qed.
Lemma nearest_off f x : off (quot f (nearest f x)) x <= / 2 / 10 ^ f.
Proof.
  unfold off. rewrite Q2R_quot. unfold nearest. pose proof (rhe_bounds (x * 10 ^ f)) as B. pose proof (pow10_pos_R f) as P.
  set (z := IZR (round_half_even (x * 10 ^ f))) in *. set (p := 10 ^ f) in *. replace (z / p - x) with ((z - x * p) / p) by (field; lra).
  assert (0 < / p) by (apply Rinv_0_lt_compat; lra). apply Rabs_le. unfold Rdiv. split; nra.
Qed.
Lemma nearest_range f x b : 0 <= x -> x * 10 ^ f <= IZR b -> (0 <= nearest f x <= b)%Z.
Proof.
  intros L U. unfold nearest. pose proof (pow10_pos_R f). split.
  - rewrite <- (rhe_integer 0). apply rhe_mono. nra.
  - rewrite <- (rhe_integer b). apply rhe_mono. assumption.
Qed.
Lemma decimal_ok w f n : (0 < f)%nat -> (0 <= n < 10 ^ Z.of_nat (w + f))%Z -> decimal_field (decimal w f n) (quot f n).
Proof. apply decimal_dig. Qed.

(** Five digits and an exponent. *)
Fixpoint search (fuel k : nat) (x : R) : nat :=
  match fuel with O => k | S fuel => if Rleb 1 (x * 10 ^ (k + 1)) then k else search fuel (S k) x end.
Lemma search_spec x fuel : forall k, x * 10 ^ k < 1 -> 1 <= x * 10 ^ (k + fuel) -> 
  let r := search fuel k x in (r < k + fuel)%nat /\ 1 <= x * 10 ^ (r + 1) < 10.
Proof.
  induction fuel as [|fuel IH]; intros k L U; [rewrite Nat.add_0_r in U; lra|]. cbn [search]. destruct (Rleb 1 (x * 10 ^ (k + 1))) eqn:E.
  - apply Rleb_spec in E. split; [lia|]. split; [assumption|]. rewrite pow_add. simpl. lra.
  - assert (~ 1 <= x * 10 ^ (k + 1)) by (rewrite <- Rleb_spec, E; discriminate).
    destruct (IH (S k)) as [A B]; [replace (S k) with (k + 1)%nat by lia; lra|replace (S k + fuel)%nat with (k + S fuel)%nat by lia; assumption|].
    cbv zeta. split; [lia|exact B].
Qed.
Definition expo (x : R) : nat := search 10 0 x.
Definition mant (x : R) : Z := Int_part (x * 10 ^ (expo x + 5)).
Definition is_zero (x : R) : bool := Rleb x 0.
Definition mant_part (x : R) : pystr := 32%Z :: if is_zero x then dig 5 0 else dig 5 (mant x).
Definition expo_part (x : R) : pystr := if is_zero x then [43; 48]%Z else [45%Z; (48 + Z.of_nat (expo x))%Z].
Definition exp_value (x : R) : Q := if is_zero x then 0%Q else (quot 5 (mant x) / inject_Z (10 ^ Z.of_nat (expo x)))%Q.
Lemma exp_ok x : five_digits x -> exponent_field (mant_part x) (expo_part x) (exp_value x) /\ off (exp_value x) x <= x / 10000 /\ (is_zero x = false -> (expo x < 10)%nat).
Proof.
  intro F. unfold mant_part, expo_part, exp_value. destruct (is_zero x) eqn:Z0.
  - assert (x = 0) as -> by (unfold is_zero in Z0; apply Rleb_spec in Z0; destruct F as [|[F _]]; [assumption|]; assert (0 < 1 / 10 ^ 10) by (apply Rdiv_lt_0_compat; [lra|apply pow_lt; lra]); lra).
    split; [|split; [|discriminate]].
    + exists (dig 5 0), 0%Z, (quot 5 0), 48%Z. split; [reflexivity|]. split; [apply fraction_dig; [lia|cbn; lia]|]. split; [unfold digit; lia|].
      left. split; [reflexivity|]. split; [reflexivity|]. reflexivity.
    + unfold off. rewrite RMicromega.Q2R_0. rewrite Rminus_0_r, Rabs_R0. lra.
  - assert (x <> 0) by (intros ->; unfold is_zero in Z0; assert (Rleb 0 0 = true) by (apply Rleb_spec; lra); congruence).
    destruct F as [|[FL FU]]; [contradiction|]. assert (S1 : x * 10 ^ 0 < 1) by (simpl; lra).
    assert (S2 : 1 <= x * 10 ^ (0 + 10)).
    { change (0 + 10)%nat with 10%nat. apply Rmult_le_compat_r with (r := 10 ^ 10) in FL; [|apply pow_le; lra]. unfold Rdiv in FL. rewrite Rmult_assoc, Rinv_l in FL by (apply pow_nonzero; lra). lra. }
    destruct (search_spec x 10 0 S1 S2) as [K B]. fold (expo x) in K, B. set (k := expo x) in *.
    assert (PK : 0 < 10 ^ k) by apply pow10_pos_R. rewrite pow_add in B. rewrite pow_1 in B.
    assert (V : 10000 <= x * 10 ^ (k + 5) < 100000) by (rewrite pow_add; simpl; lra).
    destruct (Int_part_bounds (x * 10 ^ (k + 5))) as [I1 I2]. fold (mant x) in I1, I2.
    assert (M : (10000 <= mant x < 100000)%Z).
    { unfold mant in *. fold k in I1, I2 |- *. split.
      - assert (9999 < Int_part (x * 10 ^ (k + 5)))%Z by (apply lt_IZR; lra). lia.
      - apply lt_IZR. lra. }
    split; [|split; [|intros _; exact K]].
    + exists (dig 5 (mant x)), (Z.of_nat k), (quot 5 (mant x)), (48 + Z.of_nat k)%Z. split; [reflexivity|].
      split; [apply fraction_dig; [lia|cbn; lia]|]. split; [unfold digit; lia|]. right. split; [reflexivity|]. split; [lia|].
      field. apply inject_nonzero. pose proof (Z.pow_pos_nonneg 10 (Z.of_nat k)). lia.
    + unfold off. rewrite Q2R_div by (apply inject_nonzero; pose proof (Z.pow_pos_nonneg 10 (Z.of_nat k)); lia).
      rewrite Q2R_quot, Q2R_inject, pow10_R. unfold mant in *. fold k in I1, I2, M |- *. set (m := IZR (Int_part (x * 10 ^ (k + 5)))) in *. rewrite pow_add in *.
      set (p := 10 ^ k) in *. set (c := 10 ^ 5) in *. assert (C : c = 100000) by (unfold c; simpl; lra). clearbody c. subst c.
      replace (m / 100000 / p - x) with (- ((x * (p * 100000) - m) / (100000 * p))) by (field; lra). rewrite Rabs_Ropp.
      assert (IP : 0 < / (100000 * p)) by (apply Rinv_0_lt_compat; lra). rewrite Rabs_right by (apply Rle_ge; apply Rmult_le_pos; lra).
      apply Rmult_le_reg_r with (100000 * p); [lra|]. unfold Rdiv at 1. rewrite Rmult_assoc, Rinv_l by lra. lra.
Qed.

(** ** The lines *)
Definition with_check (l : pystr) : pystr := l ++ [(48 + column_sum 68 l mod 10)%Z].
Definition body2 (sat inc node ecc argp mo no : Z) : pystr :=
  ([50; 32] ++ dig 5 sat ++ [32] ++ decimal 3 4 inc ++ [32] ++ decimal 3 4 node ++ [32] ++ dig 7 ecc ++ [32] ++ decimal 3 4 argp ++ [32] ++ decimal 3 4 mo ++ [32]
   ++ decimal 2 8 no ++ dig 5 0)%Z.
Definition body1 (sat ep : Z) (sg : Z) (nd : Z) (m1 e1 m2 e2 : pystr) : pystr :=
  ([49; 32] ++ dig 5 sat ++ [0; 32] ++ repeat 32 9 ++ decimal 5 8 ep ++ [32] ++ sg :: 46 :: dig 8 nd ++ [32] ++ m1 ++ e1 ++ [32] ++ m2 ++ e2 ++ [32; 48; 32] ++ dig 4 0)%Z.

Open Scope Z_scope.
Lemma column_sum_app n l r : length l = n -> column_sum n (l ++ r) = column_sum n l.
Proof. revert n. induction l as [|c l IH]; intros [|n] H; try discriminate; cbn [column_sum app]; [destruct r; reflexivity|]. rewrite IH; [reflexivity|]. cbn in H. congruence. Qed.
Lemma with_check_ok l : length l = 68%nat -> checksum_ok (with_check l).
Proof.
  intro L. unfold with_check. exists (column_sum 68 l mod 10). split.
  - rewrite nth_error_app2 by lia. now rewrite L.
  - pose proof (Z.mod_pos_bound (column_sum 68 l) 10 ltac:(lia)). split; [lia|]. exists (column_sum 68 l / 10). rewrite column_sum_app by assumption.
    apply Z.div_mod. lia.
Qed.
Lemma columns_mid a s b n m : length a = n -> length s = (m + 1 - n)%nat -> columns (a ++ s ++ b) n m s.
Proof.
  intros L1 L2. split; [assumption|]. intros k Hk. rewrite nth_error_app2 by lia. replace (n + k - length a)%nat with k by lia. now rewrite nth_error_app1.
Qed.
Lemma col_intro l k c (P : Z -> Prop) : nth_error l k = Some c -> P c -> col l k P.
Proof. intros. exists c. auto. Qed.
Lemma dg_bd k n : blank_or_digit (dg k n). Proof. right. apply dg_digit. Qed.
Lemma dg_neq k n z : z < 48 \/ 57 < z -> dg k n <> z. Proof. pose proof (dg_digit k n). unfold digit in *. lia. Qed.
Lemma check_bd l : blank_or_digit (48 + column_sum 68 l mod 10).
Proof. right. unfold digit. pose proof (Z.mod_pos_bound (column_sum 68 l) 10 ltac:(lia)). lia. Qed.
Ltac colk := eapply col_intro; [reflexivity|]; unfold any_sign, blank_or_digit, catalog_lead, blank, plus, minus, point, upper; auto using dg_bd, dg_digit, check_bd.
Ltac colsk := repeat (apply cols_cons; [lia|split; [colk|]]); apply cols_one; colk.
Opaque dg.
Lemma body2_length sat inc node ecc argp mo no : length (body2 sat inc node ecc argp mo no) = 68%nat.
Proof. reflexivity. Qed.
Lemma line2_ok sat inc node ecc argp mo no : line2_format (with_check (body2 sat inc node ecc argp mo no)).
Proof.
  constructor.
  - reflexivity.
  - colk.
  - repeat (constructor; [colk|]). constructor.
  - split; [eapply col_intro; [reflexivity|]; right; left; apply dg_digit|colsk].
  - repeat (constructor; [split; [colsk|split; [colk|colsk]]|]). constructor.
  - colsk.
  - split; [colsk|]. split; [colk|colsk].
Qed.
Lemma line1_ok sat ep sg nd a s1 d1 b s2 d2 : sg = 32 \/ sg = 45 -> s1 = 43 \/ s1 = 45 -> s2 = 43 \/ s2 = 45 -> digit d1 -> digit d2 ->
  let l := with_check (body1 sat ep sg nd (32 :: dig 5 a) [s1; d1] (32 :: dig 5 b) [s2; d2]) in
  line1_format (replace_at 7 85 l) /\ (forall k, nth_error l k = Some 0 <-> k = 7%nat) /\ checksum_ok l.
Proof.
  intros G S1 S2 D1 D2 l. split; [|split].
  - assert (B1 : blank_or_digit d1) by now right. assert (B2 : blank_or_digit d2) by now right. constructor.
    + reflexivity.
    + colk.
    + repeat (constructor; [colk|]). constructor.
    + split; [eapply col_intro; [reflexivity|]; right; left; apply dg_digit|colsk].
    + eapply col_intro; [reflexivity|]. unfold upper. lia.
    + split; colsk.
    + split; [colsk|split; [colk|colsk]].
    + left. split; [eapply col_intro; [reflexivity|]; left; unfold any_sign, blank, minus; tauto|]. split; [colk|colsk].
    + split; [colk|split; [colsk|split; [colk|colk]]].
    + split; [colk|split; [colsk|split; [colk|colk]]].
    + eapply col_intro; [reflexivity|]. right. unfold digit. lia.
    + colsk.
  - intro k. split; [|intros ->; reflexivity]. intro H. destruct (Nat.eq_dec k 7) as [|N]; [assumption|exfalso].
    assert (Z1 : d1 <> 0 /\ d2 <> 0) by (unfold digit in *; lia).
    assert (Z2 : s1 <> 0 /\ s2 <> 0 /\ sg <> 0) by lia.
    assert (Z3 : 48 + column_sum 68 (body1 sat ep sg nd (32 :: dig 5 a) [s1; d1] (32 :: dig 5 b) [s2; d2]) mod 10 <> 0).
    { pose proof (Z.mod_pos_bound (column_sum 68 (body1 sat ep sg nd (32 :: dig 5 a) [s1; d1] (32 :: dig 5 b) [s2; d2])) 10 ltac:(lia)). lia. }
    unfold l, with_check in H. set (c := 48 + _ mod 10) in *. clearbody c.
    assert (F : Forall (fun x => x <> 0) (replace_at 7 85 (body1 sat ep sg nd (32 :: dig 5 a) [s1; d1] (32 :: dig 5 b) [s2; d2] ++ [c]))).
    { unfold body1, decimal. cbn [repeat dig app replace_at]. repeat (constructor; [first [lia|apply dg_neq; lia|tauto]|]). constructor. }
    rewrite Forall_forall in F. apply (F 0); [|reflexivity]. rewrite <- (nth_replace_other 7 k 85) in H by lia. eapply nth_error_In. exact H.
  - apply with_check_ok. reflexivity.
Qed.
Transparent dg.
(** ** The oracles *)
Definition sign_of (x : R) : Z := if Rltb x 0 then 45 else 32.
Definition witness_printer (satnum : Z) (s : elset) : pyres (pystr * pystr) :=
  Ok (with_check (body1 satnum (nearest 8 (e_epoch s)) (sign_of (rev_per_day 2 (e_ndot s))) (nearest 8 (Rabs (rev_per_day 2 (e_ndot s))))
        (mant_part (rev_per_day 3 (e_nddot s))) (expo_part (rev_per_day 3 (e_nddot s))) (mant_part (e_bstar s)) (expo_part (e_bstar s))),
      with_check (body2 satnum (nearest 4 (degrees (e_inc s))) (nearest 4 (degrees (e_node s))) (nearest 7 (e_ecc s)) (nearest 4 (degrees (e_argp s)))
        (nearest 4 (degrees (e_mo s))) (nearest 8 (rev_per_day 1 (e_no s))))).
Definition signed_value (x : R) : Q := if Rltb x 0 then (- quot 8 (nearest 8 (Rabs x)))%Q else quot 8 (nearest 8 (Rabs x)).
Definition witness_elements (satnum : Z) (s : elset) : elements :=
  mk_elements satnum (signed_value (rev_per_day 2 (e_ndot s))) (exp_value (rev_per_day 3 (e_nddot s))) (exp_value (e_bstar s)) 0 0
    (quot 4 (nearest 4 (degrees (e_inc s)))) (quot 4 (nearest 4 (degrees (e_node s)))) (quot 7 (nearest 7 (e_ecc s))) (quot 4 (nearest 4 (degrees (e_argp s))))
    (quot 4 (nearest 4 (degrees (e_mo s)))) (quot 8 (nearest 8 (rev_per_day 1 (e_no s)))) 0.
Lemma signed_off x : (off (signed_value x) x <= / 2 / 10 ^ 8)%R.
Proof.
  unfold signed_value. pose proof (nearest_off 8 (Rabs x)) as N. unfold off in *. destruct (Rltb x 0) eqn:E.
  - apply Rltb_spec in E. rewrite Q2R_opp. rewrite (Rabs_left x) in * by assumption. rewrite <- Rabs_Ropp. replace (- (- Q2R (quot 8 (nearest 8 (- x))) - x))%R with (Q2R (quot 8 (nearest 8 (- x))) - - x)%R by ring. exact N.
  - apply Rltb_false in E. now rewrite (Rabs_right x) in * by (apply Rle_ge; assumption).
Qed.
Lemma signed_ok x : (Rabs x <= 99999999 / 100000000)%R -> signed_field (sign_of x :: 46 :: dig 8 (nearest 8 (Rabs x))) (signed_value x).
Proof.
  intro B. assert (R : 0 <= nearest 8 (Rabs x) <= 99999999) by (apply nearest_range; [apply Rabs_pos|simpl; lra]).
  pose proof (decimal_ok 0 8 (nearest 8 (Rabs x)) ltac:(lia) ltac:(cbn; lia)) as D. unfold decimal in D. cbn [dig app] in D.
  unfold signed_value, sign_of. destruct (Rltb x 0).
  - right. exists 0%nat, 45, (46 :: dig 8 (nearest 8 (Rabs x))), (quot 8 (nearest 8 (Rabs x))). split; [reflexivity|]. split; [exact D|]. split.
    + intros c E. injection E as <-. lia. + right. split; [reflexivity|]. reflexivity.
  - left. destruct D as (k & ip & fp & E & D). exists (S k), ip, fp. split; [cbn [repeat app]; f_equal; exact E|exact D].
Qed.
Lemma columns_of l a b s : length s = (b + 1 - a)%nat -> slice a (b + 1) l = s -> columns l a b s.
Proof.
  intros L E. split; [assumption|]. intros k Hk. rewrite <- E. unfold slice. rewrite <- E in Hk. unfold slice in Hk.
  rewrite firstn_length in Hk. assert (Q : forall (r : pystr) n, (k < n)%nat -> nth_error (firstn n r) k = nth_error r k).
  { clear. intro r. revert k. induction r as [|x r IH]; intros k n H; [destruct n, k; reflexivity|]. destruct n; [lia|]. destruct k; [reflexivity|]. cbn. apply IH. lia. }
  rewrite Q by lia. now rewrite nth_error_skipn_add.
Qed.
(** ** The contracts hold *)
Open Scope R_scope.
Lemma prints_ok sat ep sg nd m1 e1 m2 e2 inc node ecc argp mo no el :
  length m1 = 6%nat -> length e1 = 2%nat -> length m2 = 6%nat -> length e2 = 2%nat ->
  int_field (dig 5 sat) (el_catalog el) -> signed_field (sg :: 46%Z :: dig 8 nd) (el_ndot el) ->
  exponent_field m1 e1 (el_nddot el) -> exponent_field m2 e2 (el_bstar el) -> el_type el = 0%Z -> el_number el = 0%Z -> el_rev el = 0%Z ->
  decimal_field (decimal 3 4 inc) (el_incl el) -> decimal_field (decimal 3 4 node) (el_raan el) -> fraction_field (dig 7 ecc) (el_ecc el) ->
  decimal_field (decimal 3 4 argp) (el_argp el) -> decimal_field (decimal 3 4 mo) (el_anomaly el) -> decimal_field (decimal 2 8 no) (el_motion el) ->
  prints (with_check (body1 sat ep sg nd m1 e1 m2 e2)) (with_check (body2 sat inc node ecc argp mo no)) el.
Proof.
  intros L1 L2 L3 L4 H1 H2 H3 H4 T1 T2 T3 H5 H6 H7 H8 H9 H10.
  destruct m1 as [|a1 [|a2 [|a3 [|a4 [|a5 [|a6 [|]]]]]]]; try discriminate. destruct e1 as [|b1 [|b2 [|]]]; try discriminate.
  destruct m2 as [|c1 [|c2 [|c3 [|c4 [|c5 [|c6 [|]]]]]]]; try discriminate. destruct e2 as [|d1 [|d2 [|]]]; try discriminate.
  assert (I1 : forall w, (0 < w)%nat -> int_field (dig w 0) 0) by (intros w W; apply int_dig; [assumption|]; split; [lia|]; apply Z.pow_pos_nonneg; lia).
  constructor.
  - eexists. split; [|exact H1]. apply columns_of; reflexivity.
  - eexists. split; [|exact H2]. apply columns_of; reflexivity.
  - do 2 eexists. split; [|split; [|exact H3]]; apply columns_of; reflexivity.
  - do 2 eexists. split; [|split; [|exact H4]]; apply columns_of; reflexivity.
  - exists [48%Z]. split; [apply columns_of; reflexivity|]. rewrite T1. exact (I1 1%nat ltac:(lia)).
  - eexists. split; [|rewrite T2; exact (I1 4%nat ltac:(lia))]. apply columns_of; reflexivity.
  - eexists. split; [|exact H5]. apply columns_of; reflexivity.
  - eexists. split; [|exact H6]. apply columns_of; reflexivity.
  - eexists. split; [|exact H7]. apply columns_of; reflexivity.
  - eexists. split; [|exact H8]. apply columns_of; reflexivity.
  - eexists. split; [|exact H9]. apply columns_of; reflexivity.
  - eexists. split; [|exact H10]. apply columns_of; reflexivity.
  - eexists. split; [|rewrite T3; exact (I1 5%nat ltac:(lia))]. apply columns_of; reflexivity.
Qed.
Lemma deg_range x b : 0 <= x <= b * PI -> 0 <= degrees x <= b * 180.
Proof.
  intro H. pose proof PI_RGT_0. unfold degrees. assert (0 < 180 / PI) by (apply Rdiv_lt_0_compat; lra). split.
  - apply Rmult_le_pos; lra.
  - replace (b * 180) with (b * PI * (180 / PI)) by (field; lra). apply Rmult_le_compat_r; lra.
Qed.
Lemma angle_field x : 0 <= x <= 2 * PI -> decimal_field (decimal 3 4 (nearest 4 (degrees x))) (quot 4 (nearest 4 (degrees x))).
Proof.
  intro H. apply deg_range in H. apply decimal_ok; [lia|]. pose proof (nearest_range 4 (degrees x) 3600000 ltac:(lra) ltac:(simpl; lra)). cbn. lia.
Qed.
Lemma epoch_range x : 2558 <= x < 39083 -> (0 <= nearest 8 x <= 3908300000000)%Z.
Proof. intro H. apply nearest_range; [lra|simpl; lra]. Qed.
Lemma witness_printer_ok : printer_contract witness_printer.
Proof.
  intros satnum s HS (U1 & U2 & U3 & U4 & U5 & U6) (P1 & P2 & P3 & P4 & P5 & P6).
  pose proof (exp_ok _ P4) as (B1 & B2 & B3). pose proof (exp_ok _ P5) as (D1 & D2 & D3).
  do 3 eexists. split; [reflexivity|].
  assert (LL : forall x, length (mant_part x) = 6%nat /\ length (expo_part x) = 2%nat) by (intro x; unfold mant_part, expo_part; destruct (is_zero x); split; reflexivity).
  assert (SG : forall x, sign_of x = 32%Z \/ sign_of x = 45%Z) by (intro x; unfold sign_of; destruct (Rltb x 0); auto).
  assert (MP : forall x, exists a, mant_part x = 32%Z :: dig 5 a) by (intro x; unfold mant_part; destruct (is_zero x); eauto).
  assert (EP : forall x, (is_zero x = false -> (expo x < 10)%nat) -> exists c d, expo_part x = [c; d] /\ (c = 43 \/ c = 45)%Z /\ digit d).
  { intros x H. unfold expo_part, digit. destruct (is_zero x); do 2 eexists; (split; [reflexivity|]); [lia|]. specialize (H eq_refl). lia. }
  destruct (MP (rev_per_day 3 (e_nddot s))) as [a Ea]. destruct (MP (e_bstar s)) as [b Eb].
  destruct (EP _ D3) as (c1 & d1 & E1 & C1 & G1). destruct (EP _ B3) as (c2 & d2 & E2 & C2 & G2).
  pose proof (line1_ok satnum (nearest 8 (e_epoch s)) (sign_of (rev_per_day 2 (e_ndot s))) (nearest 8 (Rabs (rev_per_day 2 (e_ndot s)))) a c1 d1 b c2 d2 (SG _) C1 C2 G1 G2) as L1.
  rewrite <- Ea, <- Eb, <- E1, <- E2 in L1. destruct L1 as (F1 & N1 & K1).
  assert (PI0 := PI_RGT_0).
  assert (MO : 0 <= rev_per_day 1 (e_no s)).
  { unfold rev_per_day. apply Rmult_le_pos; [|left; apply Rinv_0_lt_compat; lra]. simpl. lra. }
  pose proof (nearest_range 8 (rev_per_day 1 (e_no s)) 9999000000 MO ltac:(simpl; lra)) as NM.
  pose proof (nearest_range 7 (e_ecc s) 9999999 ltac:(lra) ltac:(simpl; lra)) as NE.
  apply (Build_exported satnum s _ _ (witness_elements satnum s)); try assumption.
  - apply line2_ok.
  - apply with_check_ok, body2_length.
  - unfold witness_elements. apply prints_ok; cbn [el_catalog el_ndot el_nddot el_bstar el_type el_number el_incl el_raan el_ecc el_argp el_anomaly el_motion el_rev]; try apply LL; try assumption; try reflexivity.
    + apply int_dig; [lia|]. cbn. lia.
    + apply signed_ok. assumption.
    + apply angle_field. lra. + apply angle_field. lra.
    + apply fraction_dig; [lia|]. cbn. lia.
    + apply angle_field. lra. + apply angle_field. lra.
    + apply decimal_ok; [lia|]. cbn. lia.
  - reflexivity.
  - eapply Rle_trans; [apply nearest_off|simpl; lra].
  - eapply Rle_trans; [apply nearest_off|simpl; lra].
  - eapply Rle_trans; [apply nearest_off|simpl; lra].
  - eapply Rle_trans; [apply nearest_off|simpl; lra].
  - eapply Rle_trans; [apply nearest_off|simpl; lra].
  - eapply Rle_trans; [apply nearest_off|simpl; lra].
  - eapply Rle_trans; [apply signed_off|simpl; lra].
Qed.
(** An epoch that reads its columns as a count of days. *)
Definition witness_epoch (a _ : pystr) : pyres Z := bind (py_float (slice 18 32 a)) (fun q => Ok (Qfloor (q * inject_Z 86400000000))).
Lemma nearest_mono f x y : x <= y -> (nearest f x <= nearest f y)%Z.
Proof.
  intro H. unfold nearest. apply rhe_mono. apply Rmult_le_compat_r; [left; apply pow10_pos_R|assumption].
Qed.
Lemma witness_epoch_ok : epoch_contract witness_epoch witness_printer.
Proof.
  exists (fun x => (nearest 8 x * 864)%Z). split; [|split].
  - intros x y _ H _. pose proof (nearest_mono 8 x y H). lia.
  - intros x _. rewrite mult_IZR. pose proof (nearest_off 8 x) as N. unfold off in N. rewrite Q2R_quot in N.
    replace (IZR (nearest 8 x) * 864 - x * 86400000000) with ((IZR (nearest 8 x) / 10 ^ 8 - x) * 86400000000) by (simpl; field).
    rewrite Rabs_mult, (Rabs_right 86400000000) by lra. apply Rle_trans with (/ 2 / 10 ^ 8 * 86400000000); [apply Rmult_le_compat_r; [lra|assumption]|]. simpl. lra.
  - intros satnum s l1 l2 _ _ (P1 & _) E. injection E as <- <-. pose proof (epoch_range _ P1) as R. unfold witness_epoch.
    set (l := replace_at 7 _ _). assert (S : slice 18 32 l = decimal 5 8 (nearest 8 (e_epoch s))) by reflexivity. rewrite S. clear S l.
    destruct (decimal_field_parse _ _ (decimal_ok 5 8 (nearest 8 (e_epoch s)) ltac:(lia) ltac:(cbn; lia))) as (q & Eq & Hq). rewrite Eq. cbn [bind]. f_equal.
    rewrite Hq. unfold quot. replace (nearest 8 (e_epoch s) * 864)%Z with (Qfloor (inject_Z (nearest 8 (e_epoch s) * 864))) by apply Qfloor_Z.
    apply Qfloor_comp. rewrite inject_Z_mult. change (10 ^ Z.of_nat 8)%Z with 100000000%Z. field.
Qed.
(** A reader built on the accessors. *)
Definition witness_reader (l1 l2 : pystr) : pyres elset :=
  let v := [l1; l2] in
  bind (get_inclination v 0) (fun i => bind (get_raan v 0) (fun n => bind (get_perigee_argument v 0) (fun a =>
  bind (Tle_Model.get_mean_anomaly v 0) (fun m => bind (get_eccentricity v 0) (fun e => bind (Tle_Model.get_mean_motion v 0) (fun k =>
  bind (get_b_star v 0) (fun b => bind (get_first_derivative v 0) (fun d => bind (get_second_derivative v 0) (fun dd =>
  Ok (mk_elset 0 (Q2R b) (Q2R d * (2 * PI) / 1440 ^ 2) (Q2R dd * (2 * PI) / 1440 ^ 3) (Q2R e) (radians (Q2R a)) (radians (Q2R i)) (radians (Q2R m))
        (Q2R k * (2 * PI) / 1440 ^ 1) (radians (Q2R n)))))))))))).
Lemma rev_back k x : rev_per_day k (x * (2 * PI) / 1440 ^ k) = x.
Proof. unfold rev_per_day. pose proof PI_RGT_0. assert (1440 ^ k <> 0) by (apply pow_nonzero; lra). set (p := 1440 ^ k) in *. clearbody p. field. split; lra. Qed.
Lemma witness_reader_ok : reader_contract witness_reader.
Proof.
  intros l1 l2 el _ _ P.
  destruct (accessors_lemma [l1; l2] 0 l1 l2 el eq_refl eq_refl P) as (_ & A2 & A3 & A4 & _ & _ & A7 & A8 & A9 & A10 & A11 & A12 & _).
  destruct A2 as (q2 & E2 & H2), A3 as (q3 & E3 & H3), A4 as (q4 & E4 & H4), A7 as (q7 & E7 & H7), A8 as (q8 & E8 & H8), A9 as (q9 & E9 & H9),
    A10 as (q10 & E10 & H10), A11 as (q11 & E11 & H11), A12 as (q12 & E12 & H12).
  unfold witness_reader. rewrite E7, E8, E10, E11, E9, E12, E4, E2, E3. cbn [bind]. eexists. split; [reflexivity|].
  cbn [e_inc e_node e_argp e_mo e_ecc e_no e_bstar e_ndot e_nddot]. rewrite !rev_back.
  repeat split; try (apply Qeq_eqR; assumption); f_equal; apply Qeq_eqR; assumption.
Qed.
