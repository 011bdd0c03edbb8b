(** Proofs about TLE corruption and field decoding. *)
From Coq Require Import String Ascii ZArith QArith List Bool Lia Sorting.Sorted Lqa Zdiv.
From Verif Require Import Base BaseFacts Tle_Model Tle_Spec Tle_Proofs.
Import ListNotations.
Open Scope Z_scope.
Local Arguments Z.mul : simpl never.
Local Arguments Z.add : simpl never.

(** ** Corruption *)
Definition wt (c : Z) : Z := if (48 <=? c) && (c <=? 57) then c - 48 else if c =? 45 then 1 else 0.
Lemma column_sum_replace n j l c x :
  (j < n)%nat -> nth_error l j = Some c ->
  column_sum n (replace_at j x l) = column_sum n l + wt x - wt c.
Proof.
  revert n l. induction j as [|j IH]; intros [|n] [|y l] Hj E; try lia; try discriminate.
  - injection E as ->. simpl. fold (wt x). fold (wt c). lia.
  - simpl. simpl in E. rewrite (IH n l) by (auto; lia). lia.
Qed.
Lemma column_sum_replace_out n j l x :
  (n <= j)%nat -> column_sum n (replace_at j x l) = column_sum n l.
Proof.
  revert n l. induction j as [|j IH]; intros [|n] [|y l] Hj; try lia; try reflexivity.
  simpl. rewrite IH by lia. reflexivity.
Qed.
Lemma nth_replace_same {A} j (x c : A) l : nth_error l j = Some c -> nth_error (replace_at j x l) j = Some x.
Proof. revert l. induction j; intros [|y l] E; try discriminate; simpl in *; auto. Qed.
Lemma nth_replace_other {A} j k (x : A) l : j <> k -> nth_error (replace_at j x l) k = nth_error l k.
Proof.
  revert k l. induction j as [|j IH]; intros k [|y l] H; destruct k; try reflexivity; try congruence.
  simpl. apply IH. lia.
Qed.

Lemma wt_digit c : digit c -> wt c = c - 48.
Proof.
  unfold digit, wt. intro H. destruct (Z.leb_spec 48 c); [|lia]. destruct (Z.leb_spec c 57); [|lia].
  reflexivity.
Qed.

Lemma checksum_detects l j c d :
  length l = 69%nat -> checksum_ok l -> nth_error l j = Some c -> digit c -> digit d -> d <> c ->
  ~ checksum_ok (replace_at j d l).
Proof.
  intros L (k & E & Hk & q & Hq) Ej Hc Hd Ne (k' & E' & Hk' & q' & Hq').
  assert (Hj : (j < 69)%nat) by (rewrite <- L; apply nth_error_Some; congruence).
  unfold digit in *.
  destruct (Nat.eq_dec j 68) as [->|Hj'].
  - rewrite (nth_replace_same _ _ c) in E' by assumption. rewrite Ej in E.
    rewrite column_sum_replace_out in Hq' by lia. injection E as ->. injection E' as ->.
    rewrite Hq in Hq'. lia.
  - rewrite nth_replace_other in E' by assumption. rewrite E in E'.
    rewrite (column_sum_replace _ _ _ c) in Hq' by (auto; lia).
    rewrite !wt_digit in Hq' by (unfold digit; lia). assert (k = k') by (injection E'; lia). subst. lia.
Qed.

Lemma pairs_forall epoch v es l :
  pairs_ok epoch v es -> In l v -> length l = 69%nat /\ checksum_ok l.
Proof.
  induction 1 as [|a b r e es Fa Fb Ca Cb E P IH]; intros [].
  - subst. split; [apply Fa|assumption].
  - destruct H; [subst; split; [apply Fb|assumption]|auto].
Qed.

Lemma in_replace {A} k (x y : A) v : nth_error v k = Some y -> In x (replace_at k x v).
Proof.
  revert v. induction k; intros [|z v] E; try discriminate; simpl in *; auto.
Qed.

Lemma corrupt_rejected epoch v w k l j c d x :
  construct_tle epoch v = Ok w ->
  nth_error v k = Some l -> nth_error l j = Some c -> digit c -> digit d -> d <> c ->
  construct_tle epoch (replace_at k (replace_at j d l) v) <> Ok x.
Proof.
  intros H Ek Ej Hc Hd Ne H'. apply construct_iff in H as [_ [_ [es [P _]]]].
  apply construct_iff in H' as [_ [_ [es' [P' _]]]].
  destruct (pairs_forall _ _ _ l P) as [L C]; [eapply nth_error_In; eauto|].
  destruct (pairs_forall _ _ _ (replace_at j d l) P') as [_ C']; [eapply in_replace; eauto|].
  exact (checksum_detects l j c d L C Ej Hc Hd Ne C').
Qed.
Lemma replace_length {A} k (x : A) v : length (replace_at k x v) = length v.
Proof. revert v. induction k; intros [|y v]; simpl; auto. Qed.
Lemma corrupt_error epoch v w k l j c d :
  (forall a b e, epoch a b = Raise e -> e = ValueError) ->
  construct_tle epoch v = Ok w ->
  nth_error v k = Some l -> nth_error l j = Some c -> digit c -> digit d -> d <> c ->
  construct_tle epoch (replace_at k (replace_at j d l) v) = Raise ValidationError.
Proof.
  intros HO H Ek Ej Hc Hd Ne.
  destruct (construct_total epoch (replace_at k (replace_at j d l) v) HO) as [E|E]; [| |assumption].
  - rewrite replace_length. apply construct_iff in H as [_ [_ [es [P _]]]]. exact (pairs_even _ _ _ P).
  - exfalso. exact (corrupt_rejected epoch v w k l j c d _ H Ek Ej Hc Hd Ne E).
Qed.

(** ** Decoding *)
Lemma lstrip_repeat k s : lstrip (repeat 32 k ++ s) = lstrip s.
Proof. induction k; simpl; auto. Qed.
Lemma lstrip_id s : (forall c, nth_error s 0 = Some c -> c <> 32) -> lstrip s = s.
Proof.
  destruct s as [|c s]; intro H; [reflexivity|]. simpl.
  destruct (Z.eqb_spec c 32) as [E|E]; [|reflexivity]. exfalso. apply (H c); auto.
Qed.
Lemma lstrip_spec s : exists k, s = repeat 32 k ++ lstrip s /\ (forall c, nth_error (lstrip s) 0 = Some c -> c <> 32).
Proof.
  induction s as [|c s IH]; [exists 0%nat; split; [reflexivity|discriminate]|].
  simpl. destruct (Z.eqb_spec c 32) as [->|E].
  - destruct IH as [k [E1 E2]]. exists (S k). split; [simpl; f_equal; assumption|assumption].
  - exists 0%nat. split; [reflexivity|]. simpl. intros c' [= <-]. assumption.
Qed.
Lemma rev_repeat {A} (x : A) k : rev (repeat x k) = repeat x k.
Proof.
  induction k; simpl; auto. rewrite IHk. clear. induction k; simpl; auto. f_equal; assumption.
Qed.
Lemma nth_error_app_first {A} (a b : list A) c : nth_error a 0 = Some c -> nth_error (a ++ b) 0 = Some c.
Proof. destruct a; [discriminate|auto]. Qed.
Lemma strip_spec s : trimmed s (strip s).
Proof.
  destruct (lstrip_spec s) as [k [E1 E2]]. destruct (lstrip_spec (rev (lstrip s))) as [m [E3 E4]].
  exists k, m. unfold strip. split; [|split].
  - rewrite E1 at 1. f_equal. rewrite <- (rev_involutive (lstrip s)) at 1. rewrite E3 at 1.
    rewrite rev_app_distr, rev_repeat. reflexivity.
  - intros c H. apply E2. rewrite <- (rev_involutive (lstrip s)). rewrite E3, rev_app_distr.
    apply nth_error_app_first. assumption.
  - rewrite rev_involutive. exact E4.
Qed.

Definition solid (s : pystr) : Prop := Forall (fun c => c <> 32) s.
Lemma strip_solid k s : solid s -> strip (repeat 32 k ++ s) = s.
Proof.
  intro H. unfold strip. rewrite lstrip_repeat.
  rewrite (lstrip_id s), (lstrip_id (rev s)); [apply rev_involutive| |].
  - intros c E. apply nth_error_In, in_rev in E. rewrite ?rev_involutive in E.
    unfold solid in H. rewrite Forall_forall in H. auto.
  - intros c E. apply nth_error_In in E. unfold solid in H. rewrite Forall_forall in H. auto.
Qed.
Lemma digits_solid ds : Forall digit ds -> solid ds.
Proof. apply Forall_impl. unfold digit. lia. Qed.
Lemma digits_positional ds acc :
  Forall digit ds -> digits acc ds = Some (acc * 10 ^ Z.of_nat (length ds) + positional ds).
Proof.
  intro H. revert acc. induction H as [|c ds Hc H IH]; intro acc.
  - simpl. f_equal. lia.
  - cbn [digits positional length]. unfold digit in Hc. unfold is_digit.
    destruct (Z.leb_spec 48 c); [|lia]. destruct (Z.leb_spec c 57); [|lia]. cbn [andb].
    rewrite IH. f_equal. rewrite Nat2Z.inj_succ, Z.pow_succ_r by lia. ring.
Qed.
Lemma split_sign_other s : (forall c, nth_error s 0 = Some c -> c <> 45 /\ c <> 43) -> split_sign s = (false, s).
Proof.
  destruct s as [|c s]; intro H; [reflexivity|]. simpl. destruct (H c eq_refl).
  destruct (Z.eqb_spec c 45); [congruence|]. destruct (Z.eqb_spec c 43); [congruence|]. reflexivity.
Qed.
Lemma int_field_parse s n : int_field s n -> py_int s = Ok n.
Proof.
  intros (k & ds & -> & NE & HD & ->). unfold py_int. rewrite strip_solid by now apply digits_solid.
  rewrite split_sign_other.
  2:{ intros c E. apply nth_error_In in E. rewrite Forall_forall in HD. specialize (HD _ E). unfold digit in HD. lia. }
  destruct ds as [|d ds]; [congruence|]. rewrite digits_positional by assumption. f_equal.
Qed.
Lemma split_dot_app ip fp : Forall digit ip -> split_dot (ip ++ 46 :: fp) = (ip, Some fp).
Proof.
  induction 1 as [|c ip Hc H IH]; [reflexivity|]. simpl. unfold digit in Hc.
  destruct (Z.eqb_spec c 46); [lia|]. now rewrite IH.
Qed.
Lemma pow10_pos n : (0 < inject_Z (10 ^ Z.of_nat n))%Q.
Proof. change 0%Q with (inject_Z 0). rewrite <- Zlt_Qlt. apply Z.pow_pos_nonneg; lia. Qed.
Lemma q_of_scaled q n d : (0 < d)%Q -> (q * d == n)%Q -> (n / d == q)%Q.
Proof. intros H <-. field. lra. Qed.

Lemma decimal_parse_sign k sg ip fp neg :
  ip ++ fp <> [] -> Forall digit ip -> Forall digit fp ->
  (sg = [] /\ neg = false \/ sg = [43] /\ neg = false \/ sg = [45] /\ neg = true) ->
  exists r, py_float (repeat 32 k ++ sg ++ ip ++ 46 :: fp) = Ok (if neg then (- r)%Q else r)
   /\ (r * inject_Z (10 ^ Z.of_nat (length fp)) == inject_Z (positional (ip ++ fp)))%Q.
Proof.
  intros NE H1 H2 HS.
  exists (inject_Z (positional (ip ++ fp)) / inject_Z (10 ^ Z.of_nat (length fp)))%Q. split.
  - unfold py_float. rewrite strip_solid.
    2:{ apply Forall_app. split; [destruct HS as [[-> _]|[[-> _]|[-> _]]]; repeat constructor; lia|].
        apply Forall_app. split; [now apply digits_solid|]. constructor; [lia|now apply digits_solid]. }
    assert (ES : split_sign (sg ++ ip ++ 46 :: fp) = (neg, ip ++ 46 :: fp)).
    { destruct HS as [[-> ->]|[[-> ->]|[-> ->]]]; [|reflexivity|reflexivity].
      apply split_sign_other. intros c E. simpl in E. destruct ip as [|i ip].
      - injection E as <-. lia.
      - injection E as <-. inversion H1; subst. unfold digit in *. lia. }
    rewrite ES, split_dot_app by assumption. 
    pose proof (digits_positional (ip ++ fp) 0 ltac:(apply Forall_app; auto)) as HP.
    destruct (ip ++ fp); [congruence|]. rewrite HP. cbv zeta. destruct neg; reflexivity.
  - pose proof (pow10_pos (length fp)). field. lra.
Qed.

Lemma decimal_field_parse s q : decimal_field s q -> returns (py_float s) q.
Proof.
  intros (k & ip & fp & -> & NE & H1 & H2 & HQ).
  destruct (decimal_parse_sign k [] ip fp false NE H1 H2) as [r [E Hr]]; [auto|].
  exists r. split; [exact E|]. pose proof (pow10_pos (length fp)) as P.
  rewrite <- HQ in Hr. apply Qmult_inj_r in Hr; [assumption|]. lra.
Qed.
Lemma signed_field_parse s q : signed_field s q -> returns (py_float s) q.
Proof.
  intros [H|(k & sgn & r & q' & -> & (m & ip & fp & -> & NE & H1 & H2 & HQ) & NB & HS)];
    [now apply decimal_field_parse|].
  assert (m = 0%nat) as ->. { destruct m; [reflexivity|]. exfalso. apply (NB 32); reflexivity. }
  change (repeat 32 0 ++ ip ++ 46 :: fp) with (ip ++ 46 :: fp).
  assert (exists neg, [sgn] = [43] /\ neg = false /\ (q == q')%Q \/ [sgn] = [45] /\ neg = true /\ (q == - q')%Q)
    as [neg Hn].
  { destruct HS as [[-> E]|[-> E]]; [exists false|exists true]; auto. }
  destruct (decimal_parse_sign k [sgn] ip fp neg NE H1 H2) as [r [E Hr]]; [tauto|].
  exists (if neg then (- r)%Q else r). split; [exact E|].
  pose proof (pow10_pos (length fp)) as P.
  rewrite <- HQ in Hr. apply Qmult_inj_r in Hr; [|lra].
  destruct Hn as [[_ [-> Hq]]|[_ [-> Hq]]]; lra.
Qed.

Lemma lit_0dot : lit "0." = [48; 46].
Proof. reflexivity. Qed.
Lemma positional_zero ds : positional (48 :: ds) = positional ds.
Proof. simpl. lia. Qed.
Lemma fraction_parse k ds q : fraction_field ds q -> returns (py_float (lit "0." ++ strip (repeat 32 k ++ ds))) q.
Proof.
  intros (NE & HD & HQ). rewrite strip_solid by now apply digits_solid.
  apply decimal_field_parse. exists 0%nat, [48], ds. rewrite lit_0dot. split; [reflexivity|].
  split; [discriminate|]. split; [repeat constructor; unfold digit; lia|]. split; [assumption|].
  rewrite HQ. change ([48] ++ ds) with (48 :: ds). rewrite positional_zero. reflexivity.
Qed.

Lemma py_int_signed sg d : sg = 43 \/ sg = 45 -> digit d ->
  py_int [sg; d] = Ok (if sg =? 45 then - (d - 48) else d - 48).
Proof.
  intros HS Hd. unfold py_int. change [sg; d] with (repeat 32 0 ++ [sg; d]).
  rewrite strip_solid by (repeat constructor; unfold digit in *; lia).
  assert (E : digits 0 [d] = Some (d - 48)).
  { rewrite digits_positional by (constructor; [assumption|constructor]). f_equal. simpl. lia. }
  destruct HS as [-> | ->]; cbn [split_sign]; simpl Z.eqb; cbv iota; rewrite E; reflexivity.
Qed.

Lemma exponent_field_parse l a b c m x q :
  slice a b l = m -> slice b c l = x -> exponent_field m x q -> returns (implied_exp a b c l) q.
Proof.
  intros Em Ex (ds & k & f & d & -> & HF & Hd & HX). unfold implied_exp. rewrite Em, Ex.
  change (32 :: ds) with (repeat 32 1 ++ ds).
  destruct (fraction_parse 1 ds f HF) as [r [E Hr]]. rewrite E. cbn [bind].
  unfold digit in Hd.
  destruct HX as [[-> [-> Hq]]|[-> [-> Hq]]]; rewrite py_int_signed by (unfold digit; auto);
    cbn [bind]; simpl Z.eqb; cbv iota; eexists; (split; [reflexivity|]); unfold pow10.
  - destruct (Z.leb_spec 0 (d - 48)); [|lia]. rewrite Hr, Hq. reflexivity.
  - assert (P : (0 < inject_Z (10 ^ (d - 48)))%Q).
    { change 0%Q with (inject_Z 0). rewrite <- Zlt_Qlt. apply Z.pow_pos_nonneg; lia. }
    destruct (Z.leb_spec 0 (- (d - 48))) as [H0|H0].
    + assert (d = 48) as -> by lia. simpl in Hq |- *. rewrite Hr, <- Hq. change (10 ^ (-(48-48)))%Z with 1. change (10^(48-48)) with 1. ring.
    + rewrite Z.opp_involutive, Hr, <- Hq. field. lra.
Qed.

(** Slices and columns *)
Lemma columns_slice l a b s : (a <= b)%nat -> columns l a b s -> slice a (b + 1) l = s.
Proof.
  intros Hab [L H]. unfold slice. rewrite <- L. revert H. clear L Hab.
  revert a. induction s as [|c s IH]; intros a H; [reflexivity|].
  pose proof (H 0%nat ltac:(simpl; lia)) as H0. simpl in H0. rewrite Nat.add_0_r in H0.
  rewrite <- (nth_error_skipn_add a l 0%nat ) in H0 || idtac.
  assert (E : skipn a l = c :: skipn (S a) l).
  { clear -H H0. revert H0. replace (nth_error l a) with (nth_error (skipn a l) 0)
      by (rewrite nth_error_skipn_add; f_equal; lia).
    intro H0. destruct (skipn a l) as [|x r] eqn:E; [discriminate|].
    simpl in H0. injection H0 as ->. f_equal.
    replace (S a) with (a + 1)%nat by lia. rewrite skipn_add, E. reflexivity. }
  rewrite E. cbn [length firstn]. f_equal. apply IH. intros k Hk.
  specialize (H (S k) ltac:(simpl; lia)). simpl in H. rewrite <- H. f_equal. lia.
Qed.

Lemma columns_index l a s n : columns l a a s -> int_field s n -> bind (index a l) (fun c => py_int [c]) = Ok n.
Proof.
  intros [L H] HF. assert (exists c, s = [c]) as [c ->].
  { destruct s as [|c [|? ?]]; simpl in L; try lia. eauto. }
  specialize (H 0%nat ltac:(simpl; lia)). rewrite Nat.add_0_r in H. unfold index. rewrite H. simpl bind.
  now apply int_field_parse.
Qed.

Lemma accessors_lemma v i l1 l2 e :
  nth_error v (2 * i) = Some l1 -> nth_error v (2 * i + 1) = Some l2 -> prints l1 l2 e ->
  get_catalog_number v i = Ok (el_catalog e)
  /\ returns (get_first_derivative v i) (el_ndot e)
  /\ returns (get_second_derivative v i) (el_nddot e)
  /\ returns (get_b_star v i) (el_bstar e)
  /\ get_ephemeris_type v i = Ok (el_type e)
  /\ get_element_set_number v i = Ok (el_number e)
  /\ returns (get_inclination v i) (el_incl e)
  /\ returns (get_raan v i) (el_raan e)
  /\ returns (get_eccentricity v i) (el_ecc e)
  /\ returns (get_perigee_argument v i) (el_argp e)
  /\ returns (get_mean_anomaly v i) (el_anomaly e)
  /\ returns (get_mean_motion v i) (el_motion e)
  /\ get_revolution_number v i = Ok (el_rev e).
Proof.
  intros E1 E2 [C N ND B T EN I R EC A M MM RV].
  unfold get_catalog_number, get_first_derivative, get_second_derivative, get_b_star,
    get_ephemeris_type, get_element_set_number, get_inclination, get_raan, get_eccentricity,
    get_perigee_argument, get_mean_anomaly, get_mean_motion, get_revolution_number, line1, line2.
  assert (I1 : index (2 * i) v = Ok l1) by (unfold index; now rewrite E1).
  assert (I2 : index (2 * i + 1) v = Ok l2) by (unfold index; now rewrite E2).
  rewrite I1, I2. cbn [bind].
  destruct C as [s [Cs Fs]]. apply columns_slice in Cs; [|lia]. simpl Nat.add in Cs.
  split; [rewrite Cs; now apply int_field_parse|]. clear s Cs Fs.
  destruct N as [s [Cs Fs]]. apply columns_slice in Cs; [|lia]. simpl Nat.add in Cs.
  split; [rewrite Cs; now apply signed_field_parse|]. clear s Cs Fs.
  destruct ND as (m & x & Cm & Cx & F). apply columns_slice in Cm; [|lia]. apply columns_slice in Cx; [|lia].
  split; [now apply (exponent_field_parse l1 44 50 52 m x)|]. clear m x Cm Cx F.
  destruct B as (m & x & Cm & Cx & F). apply columns_slice in Cm; [|lia]. apply columns_slice in Cx; [|lia].
  split; [now apply (exponent_field_parse l1 53 59 61 m x)|]. clear m x Cm Cx F.
  destruct T as [s [Cs Fs]]. split; [exact (columns_index _ _ _ _ Cs Fs)|]. clear s Cs Fs.
  destruct EN as [s [Cs Fs]]. apply columns_slice in Cs; [|lia]. simpl Nat.add in Cs.
  split; [rewrite Cs; now apply int_field_parse|]. clear s Cs Fs.
  destruct I as [s [Cs Fs]]. apply columns_slice in Cs; [|lia]. simpl Nat.add in Cs.
  split; [rewrite Cs; now apply decimal_field_parse|]. clear s Cs Fs.
  destruct R as [s [Cs Fs]]. apply columns_slice in Cs; [|lia]. simpl Nat.add in Cs.
  split; [rewrite Cs; now apply decimal_field_parse|]. clear s Cs Fs.
  destruct EC as [s [Cs Fs]]. apply columns_slice in Cs; [|lia]. simpl Nat.add in Cs.
  split; [rewrite Cs; apply (fraction_parse 0); assumption|]. clear s Cs Fs.
  destruct A as [s [Cs Fs]]. apply columns_slice in Cs; [|lia]. simpl Nat.add in Cs.
  split; [rewrite Cs; now apply decimal_field_parse|]. clear s Cs Fs.
  destruct M as [s [Cs Fs]]. apply columns_slice in Cs; [|lia]. simpl Nat.add in Cs.
  split; [rewrite Cs; now apply decimal_field_parse|]. clear s Cs Fs.
  destruct MM as [s [Cs Fs]]. apply columns_slice in Cs; [|lia]. simpl Nat.add in Cs.
  split; [rewrite Cs; now apply decimal_field_parse|]. clear s Cs Fs.
  destruct RV as [s [Cs Fs]]. apply columns_slice in Cs; [|lia]. simpl Nat.add in Cs.
  rewrite Cs; now apply int_field_parse.
Qed.

Lemma slice_columns l a b : (a <= b)%nat -> (b < length l)%nat -> columns l a b (slice a (b + 1) l).
Proof.
  intros Hab Hb. unfold columns, slice.
  assert (L : length (firstn (b + 1 - a) (skipn a l)) = (b + 1 - a)%nat).
  { rewrite firstn_length, skipn_length. lia. }
  split; [exact L|]. rewrite L. intros k Hk. rewrite <- nth_error_skipn_add.
  generalize (skipn a l). revert k Hk. generalize (b + 1 - a)%nat.
  induction n as [|n IH]; intros k Hk [|x s]; [lia|lia|destruct k; reflexivity|].
  destruct k as [|k]; [reflexivity|]. simpl. apply IH. lia.
Qed.

Lemma accepted_line epoch v w k l :
  construct_tle epoch v = Ok w -> nth_error v k = Some l -> length l = 69%nat.
Proof.
  intros H E. apply construct_iff in H as [_ [_ [es [P _]]]].
  apply (pairs_forall _ _ _ l P). eapply nth_error_In; eauto.
Qed.
Lemma accepted_lines epoch v w i :
  construct_tle epoch v = Ok w -> (i < get_tle_count v)%nat ->
  exists l1 l2, nth_error v (2 * i) = Some l1 /\ nth_error v (2 * i + 1) = Some l2
    /\ line1_format l1 /\ line2_format l2.
Proof.
  intros H. apply construct_iff in H as [_ [_ [es [P _]]]]. unfold get_tle_count.
  revert i. induction P as [|a b r e es Fa Fb Ca Cb E P IH]; intros i Hi.
  - simpl in Hi. lia.
  - simpl length in Hi. cbn [Nat.div2] in Hi. destruct i as [|i].
    + exists a, b. auto.
    + destruct (IH i) as (l1 & l2 & E1 & E2 & F1 & F2); [lia|]. exists l1, l2.
      replace (2 * S i)%nat with (S (S (2 * i))) by lia.
      replace (S (S (2 * i)) + 1)%nat with (S (S (2 * i + 1))) by lia. auto.
Qed.
Lemma accepted_past epoch v w i :
  construct_tle epoch v = Ok w -> (get_tle_count v <= i)%nat ->
  line1 v i = Raise IndexError /\ line2 v i = Raise IndexError.
Proof.
  intros H Hi. apply construct_iff in H as [_ [_ [es [P _]]]].
  pose proof (pairs_even _ _ _ P) as He. unfold get_tle_count in Hi.
  assert (length v <= 2 * i)%nat.
  { apply Nat.even_spec in He as [m Hm]. rewrite Hm in *. rewrite Nat.div2_double in Hi. lia. }
  unfold line1, line2, index.
  rewrite (proj2 (nth_error_None v (2 * i))) by lia.
  rewrite (proj2 (nth_error_None v (2 * i + 1))) by lia. auto.
Qed.

Lemma positional_bound ds : Forall digit ds -> 0 <= positional ds < 10 ^ Z.of_nat (length ds).
Proof.
  induction 1 as [|c ds Hc H IH]; [simpl; lia|]. cbn [positional length].
  rewrite Nat2Z.inj_succ, Z.pow_succ_r by lia. unfold digit in Hc.
  assert (0 < 10 ^ Z.of_nat (length ds)) by (apply Z.pow_pos_nonneg; lia). nia.
Qed.

Lemma slice_digits l a b : (a <= b)%nat -> (b < length l)%nat -> cols l a b digit -> Forall digit (slice a (b + 1) l).
Proof.
  intros Hab Hb HC. destruct (slice_columns l a b Hab Hb) as [L H]. apply Forall_forall.
  intros c Hc. apply In_nth_error in Hc as [k Hk].
  assert (k < length (slice a (b + 1) l))%nat by (apply nth_error_Some; congruence).
  rewrite <- (H k) in Hk by assumption.
  destruct (HC (a + k)%nat) as [c' [E Hc']]; [lia|]. congruence.
Qed.

Lemma eccentricity_range epoch v w i l :
  construct_tle epoch v = Ok w -> nth_error v (2 * i + 1) = Some l -> cols l 26 32 digit ->
  exists e, get_eccentricity v i = Ok e /\ (0 <= e)%Q /\ (e < 1)%Q.
Proof.
  intros H El HC. pose proof (accepted_line _ _ _ _ _ H El) as L.
  pose proof (slice_digits l 26 32 ltac:(lia) ltac:(lia) HC) as HD. simpl Nat.add in HD.
  unfold get_eccentricity, line2, index. rewrite El. cbn [bind].
  set (ds := slice 26 33 l) in *.
  assert (Ld : length ds = 7%nat) by (unfold ds, slice; rewrite firstn_length, skipn_length; lia).
  pose proof (positional_bound ds HD) as B.
  destruct (fraction_parse 0 ds (inject_Z (positional ds) / inject_Z (10 ^ Z.of_nat (length ds)))) as [e [E He]].
  { split; [intro X; rewrite X in Ld; discriminate|]. split; [assumption|].
    pose proof (pow10_pos (length ds)). field. lra. }
  exists e. split; [exact E|]. rewrite He. pose proof (pow10_pos (length ds)) as P.
  destruct B as [B1 B2]. rewrite Zle_Qle in B1. change (inject_Z 0) with 0%Q in B1. rewrite Zlt_Qlt in B2. split.
  - apply Qle_shift_div_l; [assumption|]. lra.
  - apply Qlt_shift_div_r; [assumption|]. lra.
Qed.

Lemma all_digits_spec s : s <> [] -> all_digits s = true <-> Forall digit s.
Proof.
  intro NE. unfold all_digits. destruct s as [|c s]; [congruence|].
  rewrite forallb_forall, Forall_forall. split; intros H x Hx; specialize (H x Hx); unfold is_digit, digit in *.
  - apply andb_true_iff in H as [H1 H2]. apply Z.leb_le in H1, H2. lia.
  - apply andb_true_iff. split; apply Z.leb_le; lia.
Qed.

Lemma designator_lemma epoch v w i l :
  construct_tle epoch v = Ok w -> nth_error v (2 * i) = Some l ->
  exists yy launch piece d,
    columns l 9 10 yy /\ columns l 11 13 launch /\ columns l 14 16 piece
    /\ get_international_designator v i = Ok d
    /\ ((Forall digit yy /\ positional yy < 57 /\ trimmed (lit "20" ++ yy ++ lit "-" ++ launch ++ piece) d)
        \/ (Forall digit yy /\ 57 <= positional yy /\ trimmed (lit "19" ++ yy ++ lit "-" ++ launch ++ piece) d)
        \/ (~ Forall digit yy /\ trimmed (yy ++ lit "-" ++ launch ++ piece) d)).
Proof.
  intros H El. pose proof (accepted_line _ _ _ _ _ H El) as L.
  exists (slice 9 11 l), (slice 11 14 l), (slice 14 17 l).
  pose proof (slice_columns l 9 10 ltac:(lia) ltac:(lia)) as C1.
  pose proof (slice_columns l 11 13 ltac:(lia) ltac:(lia)) as C2.
  pose proof (slice_columns l 14 16 ltac:(lia) ltac:(lia)) as C3. simpl Nat.add in C1, C2, C3.
  unfold get_international_designator, line1, index. rewrite El. cbn [bind].
  set (yy := slice 9 11 l) in *. set (la := slice 11 14 l) in *. set (pc := slice 14 17 l) in *.
  assert (NE : yy <> []). { destruct C1 as [C1 _]. intro X. rewrite X in C1. discriminate. }
  destruct (all_digits yy) eqn:ED; cbn [negb bind].
  - apply all_digits_spec in ED; [|assumption].
    rewrite (int_field_parse yy (positional yy)).
    2:{ exists 0%nat, yy. repeat split; auto. }
    cbn [bind]. eexists. split; [assumption|]. split; [assumption|]. split; [assumption|].
    split; [reflexivity|].
    destruct (Z.ltb_spec (positional yy) 57); [left|right; left]; (split; [assumption|]);
      (split; [assumption|]); apply strip_spec.
  - eexists. split; [assumption|]. split; [assumption|]. split; [assumption|]. split; [reflexivity|].
    right; right. split; [|apply strip_spec].
    intro HD. apply all_digits_spec in HD; [congruence|assumption].
Qed.
