(** Which fields of a group and of its members are accepted. *)
From Coq Require Import ZArith Reals Lra Lia Bool List.
From Flocq Require Import Core IEEE754.BinarySingleNaN.
From Verif Require Import Base Float_Model Float_Spec Float_Proofs FGrid_Model FGrid_Proofs FGrid_Proofs2 FGeom_Spec FMog_Model FMog_Spec2.
Open Scope R_scope.

Lemma zero_val : finite (of_Z 0) /\ val (of_Z 0) = 0.
Proof. apply of_Z_spec. lia. Qed.
Lemma inf_cmp (x : b64) : finite x -> Bleb x (B754_infinity false) = true /\ Bltb x (B754_infinity false) = true
  /\ Bleb x (B754_infinity true) = false /\ Bltb (B754_infinity false) x = false /\ Bltb x (B754_infinity true) = false.
Proof. destruct x as [s|s| |s m e H]; intro F; try discriminate; destruct s; repeat split; reflexivity. Qed.
Lemma nan_cmp (x : b64) : Bleb x B754_nan = false /\ Bltb x B754_nan = false.
Proof. destruct x as [s|s| |s m e H]; try destruct s; split; reflexivity. Qed.
Lemma kinds (x : b64) : finite x \/ x = B754_infinity false \/ x = B754_infinity true \/ x = B754_nan.
Proof. destruct x as [s|[]| |s m e H]; auto; left; reflexivity. Qed.
Lemma above_zero_iff x : Bltb (of_Z 0) x = true <-> above_zero x.
Proof.
  destruct zero_val as [F0 V0]. unfold above_zero. destruct (kinds x) as [F|[->|[->| ->]]].
  - rewrite ltb_val, V0 by assumption. split.
    + intro H. left. split; [exact F|]. destruct (Rlt_bool_spec 0 (val x)); [assumption|discriminate].
    + intros [[_ H]| ->]; [now apply Rlt_bool_true|discriminate F].
  - split; [now right|]. intros _. now apply inf_cmp.
  - split; [|intros [[F _]|E]; discriminate]. intro H. destruct (inf_cmp _ F0) as (_ & _ & _ & _ & K). rewrite K in H. discriminate.
  - split; [|intros [[F _]|E]; discriminate]. intro H. destruct (nan_cmp (of_Z 0)) as (_ & K). rewrite K in H. discriminate.
Qed.
Lemma from_zero x : Bleb (of_Z 0) x = true <-> not_negative x.
Proof.
  destruct zero_val as [F0 V0]. unfold not_negative. destruct (kinds x) as [F|[->|[->| ->]]].
  - rewrite leb_val, V0 by assumption. split.
    + intro H. left. split; [exact F|]. destruct (Rle_bool_spec 0 (val x)); [assumption|discriminate].
    + intros [[_ H]| ->]; [now apply Rle_bool_true|discriminate F].
  - split; [now right|]. intros _. now apply inf_cmp.
  - split; [|intros [[F _]|E]; discriminate]. intro H. destruct (inf_cmp _ F0) as (_ & _ & K & _). rewrite K in H. discriminate.
  - split; [|intros [[F _]|E]; discriminate]. intro H. destruct (nan_cmp (of_Z 0)) as (K & _). rewrite K in H. discriminate.
Qed.
Lemma bound_iff hi x : (0 < hi <= 2 ^ 53)%Z -> f_in_bound hi x = true <-> turn_below (IZR hi) x.
Proof.
  intro H. destruct (of_Z_spec hi) as [Fh Vh]; [lia|]. unfold f_in_bound, turn_below. rewrite andb_true_iff, from_zero. unfold not_negative. split.
  - intros [[[F L]| ->] U]; [|exfalso; destruct (inf_cmp _ Fh) as (_ & _ & _ & K & _); rewrite K in U; discriminate].
    rewrite ltb_val, Vh in U by assumption. destruct (Rlt_bool_spec (val x) (IZR hi)); [auto|discriminate].
  - intros (F & L & U). split; [auto|]. rewrite ltb_val, Vh by assumption. now apply Rlt_bool_true.
Qed.
Theorem member_fields k : f_make_keplerian k = Ok k <->
  turn_below 360 (fk_anomaly k) /\ turn_below 180 (fk_inclination k) /\ turn_below 360 (fk_raan k) /\ not_negative (fk_eccentricity k) /\ turn_below 360 (fk_perigee k).
Proof.
  unfold f_make_keplerian. rewrite <- !bound_iff, <- from_zero by lia.
  destruct (f_in_bound 360 (fk_anomaly k)), (f_in_bound 180 (fk_inclination k)), (f_in_bound 360 (fk_raan k)), (Bleb (of_Z 0) (fk_eccentricity k)), (f_in_bound 360 (fk_perigee k)); cbn;
    split; intro H; try discriminate; try reflexivity; repeat split; try tauto; exfalso; destruct H as (? & ? & ? & ? & ?); discriminate.
Qed.
Theorem group_fields m : f_mog_valid m = true <->
  turn_below 180 (fm_inclination m) /\ turn_below 360 (fm_raan m) /\ above_zero (fm_parallel m) /\ above_zero (fm_transverse m) /\ (0 < fm_number m)%nat.
Proof.
  unfold f_mog_valid. rewrite !andb_true_iff, !bound_iff, !above_zero_iff, Nat.ltb_lt by lia. tauto.
Qed.
