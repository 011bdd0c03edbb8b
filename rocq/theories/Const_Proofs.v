(** Proofs about train and Walker constellations. *)
From Coq Require Import Reals ZArith List Bool Lra Lia Psatz.
From Verif Require Import Base BaseFacts RBase RFacts Orbit_Model Orbit_Spec Anomaly_Proofs Orbit_Proofs Orbit_Proofs2
  AnomalyInj_Proofs Const_Model Const_Spec Names_Proofs.
Import ListNotations.
Open Scope R_scope.

Lemma same_degrees_refl x : same_degrees x x. Proof. exists 0%Z. lra. Qed.
Lemma same_degrees_sym x y : same_degrees x y -> same_degrees y x.
Proof. intros [k E]. exists (- k)%Z. rewrite opp_IZR. lra. Qed.
Lemma same_degrees_trans x y z : same_degrees x y -> same_degrees y z -> same_degrees x z.
Proof. intros [k E] [l F]. exists (k + l)%Z. rewrite plus_IZR. lra. Qed.
Lemma same_degrees_add x y z : same_degrees x y -> same_degrees (x + z) (y + z).
Proof. intros [k E]. exists k. lra. Qed.
Lemma same_degrees_rmod x : same_degrees (rmod x 360) x.
Proof. apply eqm_degrees, rmod_eqm. Qed.
Lemma same_degrees_eqm x y : same_degrees x y -> eqm 360 x y.
Proof. intros [k E]. exists k. lra. Qed.
Lemma same_radians_eqm x y : same_radians x y -> eqm (2 * PI) x y.
Proof. intros [k E]. exists k. lra. Qed.
Lemma same_radians_degrees x y : same_radians x y <-> same_degrees (x * (180 / PI)) (y * (180 / PI)).
Proof.
  pose proof PI_RGT_0 as P. split; intros [k E]; exists k.
  - rewrite E. field. lra.
  - apply Rmult_eq_reg_r with (180 / PI); [|apply Rgt_not_eq; apply Rdiv_lt_0_compat; lra]. rewrite E. field. lra.
Qed.

Lemma lead_derived_lemma sun o a b : lead_ok o -> exists o', lead_derived sun o a b = Ok o' /\ advanced sun a b o o'.
Proof.
  destruct o as [c|s|k|n l]; simpl; intro V.
  - destruct (circ_derived_full_lemma c a b V) as (c' & E & H). rewrite E. exists (LCirc c'). simpl. tauto.
  - destruct (sso_derived_full_lemma sun s a b V) as (c' & E & H). rewrite E. exists (LCirc c'). simpl. tauto.
  - destruct V as [V He]. destruct (kep_derived_full_lemma k a b V He) as (k' & E & H). rewrite E. exists (LKep k'). simpl. tauto.
  - eexists. split; [reflexivity|]. simpl. split; [reflexivity|]. unfold tle_derived.
    clear V. induction l as [|s l IH]; simpl; constructor; auto. simpl.
    repeat (split; [reflexivity|]). pose proof PI_RGT_0.
    split; apply eqm_radians; apply rmod_eqm.
Qed.

(** Lists built by [mapM] over [seq]. *)
Lemma mapM_seq {B} (f : nat -> pyres B) n (P : nat -> B -> Prop) :
  (forall i, (i < n)%nat -> exists y, f i = Ok y /\ P i y) ->
  exists ys, mapM f (seq 0 n) = Ok ys /\ length ys = n /\ forall i y, nth_error ys i = Some y -> (i < n)%nat /\ P i y.
Proof.
  intro H. enough (G : forall k m, (k + m <= n)%nat -> exists ys, mapM f (seq k m) = Ok ys /\ length ys = m
    /\ forall i y, nth_error ys i = Some y -> (i < m)%nat /\ P (k + i)%nat y).
  { destruct (G 0%nat n ltac:(lia)) as (ys & E & L & N). exists ys. auto. }
  intros k m. revert k. induction m as [|m IH]; intros k Hk.
  - exists []. simpl. repeat split; destruct i; discriminate.
  - destruct (H k ltac:(lia)) as (y & Ey & Py). destruct (IH (S k) ltac:(lia)) as (ys & E & L & N).
    exists (y :: ys). simpl. rewrite Ey. simpl. rewrite E. simpl. split; [reflexivity|]. split; [lia|].
    intros [|i] z Hz; simpl in Hz.
    + injection Hz as <-. rewrite Nat.add_0_r. split; [lia|assumption].
    + apply N in Hz as [A B0]. split; [lia|]. now rewrite <- plus_n_Sm.
Qed.

Section Fix.
Context {I : Type}.
Variable sun : Z -> R.

(** ** Trains *)
Lemma train_lemma (t : @train I) n : lead_ok (tr_orbit t) -> lead_mean_motion (tr_orbit t) = Ok n ->
  exists ms, train_members sun t = Ok ms /\ length ms = tr_number t
    /\ forall i m, nth_error ms i = Some m -> (i < tr_number t)%nat
        /\ mb_name m = zero_pad (tr_name t) (Z.of_nat (tr_number t)) (Z.of_nat i + 1)
        /\ mb_instruments m = tr_instruments t
        /\ advanced sun (- (INR i * (360 * n * (IZR (tr_interval t) / 86400000000))))
             (if tr_repeat t then INR i * (360 * (IZR (tr_interval t) / 86400000000)) else 0) (tr_orbit t) (mb_orbit m).
Proof.
  intros V E.
  destruct (mapM_seq (fun i =>
    bind (train_dm t) (fun dm =>
    bind (lead_derived sun (tr_orbit t) (INR i * dm) (INR i * train_draan t)) (fun o =>
      Ok (mk_member (zero_pad (tr_name t) (Z.of_nat (tr_number t)) (Z.of_nat i + 1)) o (tr_instruments t)))))
    (tr_number t) (fun i m => mb_name m = zero_pad (tr_name t) (Z.of_nat (tr_number t)) (Z.of_nat i + 1)
        /\ mb_instruments m = tr_instruments t
        /\ advanced sun (- (INR i * (360 * n * (IZR (tr_interval t) / 86400000000))))
             (if tr_repeat t then INR i * (360 * (IZR (tr_interval t) / 86400000000)) else 0) (tr_orbit t) (mb_orbit m)))
    as (ys & E1 & L & N).
  - intros i _. unfold train_dm. rewrite E. cbn [bind].
    destruct (lead_derived_lemma sun (tr_orbit t) (INR i * (-360 * n * (IZR (tr_interval t) / IZR DAY_US))) (INR i * train_draan t) V) as (o & Eo & A).
    rewrite Eo. cbn [bind]. eexists. split; [reflexivity|]. simpl. split; [reflexivity|]. split; [reflexivity|].
    replace (- (INR i * (360 * n * (IZR (tr_interval t) / 86400000000)))) with (INR i * (-360 * n * (IZR (tr_interval t) / IZR DAY_US))) by (unfold DAY_US; lra).
    replace (if tr_repeat t then INR i * (360 * (IZR (tr_interval t) / 86400000000)) else 0) with (INR i * train_draan t); [exact A|].
    unfold train_draan, DAY_US. destruct (tr_repeat t); lra.
  - exists ys. auto.
Qed.

(** ** Walker *)
Lemma make_walker_lemma (w : @walker I) :
  (make_walker w = Ok w <-> walker_ok w) /\ (~ walker_ok w -> make_walker w = Raise ValidationError).
Proof.
  unfold make_walker, walker_ok.
  destruct (Z.leb_spec 1 (w_number w)); destruct (Z.leb_spec 1 (w_planes w)); destruct (Z.leb_spec 0 (w_spacing w)); simpl;
    try (split; [split; [discriminate|lia]|reflexivity]).
  destruct (Z.ltb_spec (w_number w) (w_planes w)); [split; [split; [discriminate|lia]|reflexivity]|].
  destruct (Z.leb_spec (w_planes w) (w_spacing w)); [split; [split; [discriminate|lia]|reflexivity]|].
  split; [|lia]. split; [lia|reflexivity].
Qed.

Lemma per_plane_lemma (w : @walker I) : walker_ok w ->
  let k := per_plane w in (1 <= k /\ (k - 1) * w_planes w < w_number w <= k * w_planes w)%Z.
Proof.
  intros [H1 H2]. cbv zeta. unfold per_plane. pose proof (Z.div_mod (- w_number w) (w_planes w) ltac:(lia)) as D.
  pose proof (Z.mod_pos_bound (- w_number w) (w_planes w) ltac:(lia)) as M. nia.
Qed.

Definition wdm (w : @walker I) (p s : Z) : R :=
  IZR s * (360 / IZR (per_plane w)) + IZR p * (360 * IZR (w_spacing w) / IZR (w_number w)).
Definition wdr (w : @walker I) (p : Z) : R :=
  IZR p * ((match w_config w with Delta => 360 | Star => 180 end) / IZR (w_planes w)).

Lemma walker_lemma (w : @walker I) : lead_ok (w_orbit w) -> walker_ok w ->
  exists ms, walker_members sun w = Ok ms /\ Z.of_nat (length ms) = w_number w
    /\ forall i m, nth_error ms i = Some m ->
        mb_name m = zero_pad (w_name w) (w_number w) (Z.of_nat i + 1)
        /\ mb_instruments m = w_instruments w
        /\ advanced sun (wdm w (Z.of_nat i / per_plane w) (Z.of_nat i mod per_plane w)) (wdr w (Z.of_nat i / per_plane w))
             (w_orbit w) (mb_orbit m).
Proof.
  intros V [W1 W2].
  destruct (mapM_seq (fun n =>
    let i := Z.of_nat n in
    bind (lead_derived sun (w_orbit w)
            (IZR (i mod per_plane w) * dm_within w + IZR (i / per_plane w) * dm_between w)
            (IZR (i / per_plane w) * draan_between w)) (fun o =>
      Ok (mk_member (zero_pad (w_name w) (w_number w) (i + 1)) o (w_instruments w)))) (Z.to_nat (w_number w))
      (fun i m => mb_name m = zero_pad (w_name w) (w_number w) (Z.of_nat i + 1)
        /\ mb_instruments m = w_instruments w
        /\ advanced sun (wdm w (Z.of_nat i / per_plane w) (Z.of_nat i mod per_plane w)) (wdr w (Z.of_nat i / per_plane w))
             (w_orbit w) (mb_orbit m))) as (ys & E1 & L & N).
  - intros i _. cbv zeta.
    destruct (lead_derived_lemma sun (w_orbit w) (wdm w (Z.of_nat i / per_plane w) (Z.of_nat i mod per_plane w)) (wdr w (Z.of_nat i / per_plane w)) V)
      as (o & Eo & A). replace (IZR (Z.of_nat i / per_plane w) * draan_between w) with (wdr w (Z.of_nat i / per_plane w))
      by (unfold wdr, draan_between; destruct (w_config w); reflexivity).
    unfold wdm in Eo at 1. unfold dm_within, dm_between. rewrite Eo. cbn [bind]. eexists. split; [reflexivity|]. simpl. auto.
  - exists ys. split; [exact E1|]. split; [rewrite L, Z2Nat.id; lia|]. intros i m H. apply N in H. tauto.
Qed.

(** Plane and slot of an index. *)
Lemma plane_slot (w : @walker I) p s : walker_ok w -> (0 <= s < per_plane w)%Z ->
  ((p * per_plane w + s) / per_plane w = p /\ (p * per_plane w + s) mod per_plane w = s)%Z.
Proof.
  intros W H. destruct (per_plane_lemma w W) as [K _]. rewrite Z.add_comm, Z.div_add, Z.mod_add, Z.div_small, Z.mod_small by lia. lia.
Qed.
Lemma plane_bound (w : @walker I) i : walker_ok w -> (0 <= i < w_number w)%Z -> (0 <= i / per_plane w < w_planes w)%Z.
Proof.
  intros W H. destruct (per_plane_lemma w W) as [K B]. split; [apply Z.div_pos; lia|]. apply Z.div_lt_upper_bound; lia.
Qed.

Lemma walker_structure_lemma (w : @walker I) : lead_ok (w_orbit w) -> walker_ok w ->
  exists ms k, walker_members sun w = Ok ms /\ Z.of_nat (length ms) = w_number w
    /\ ((k - 1) * w_planes w < w_number w <= k * w_planes w)%Z
    /\ (forall i m, nth_error ms i = Some m -> exists p s, Z.of_nat i = (p * k + s)%Z /\ (0 <= s < k)%Z /\ (0 <= p < w_planes w)%Z
         /\ advanced sun (IZR s * (360 / IZR k) + IZR p * (360 * IZR (w_spacing w) / IZR (w_number w)))
              (IZR p * ((match w_config w with Delta => 360 | Star => 180 end) / IZR (w_planes w))) (w_orbit w) (mb_orbit m))
    /\ (forall p s, (0 <= p)%Z -> (0 <= s < k)%Z -> (p * k + s < w_number w)%Z ->
         exists m, nth_error ms (Z.to_nat (p * k + s)) = Some m).
Proof.
  intros V W. destruct (walker_lemma w V W) as (ms & E & L & N). exists ms, (per_plane w).
  destruct (per_plane_lemma w W) as [K B]. split; [assumption|]. split; [assumption|]. split; [assumption|]. split.
  - intros i m H. assert (Hi : (0 <= Z.of_nat i < w_number w)%Z).
    { assert (i < length ms)%nat by (apply nth_error_Some; rewrite H; discriminate). lia. }
    exists (Z.of_nat i / per_plane w)%Z, (Z.of_nat i mod per_plane w)%Z.
    split; [pose proof (Z.div_mod (Z.of_nat i) (per_plane w) ltac:(lia)); lia|].
    split; [apply Z.mod_pos_bound; lia|]. split; [now apply plane_bound|]. apply N in H. apply H.
  - intros p s Hp Hs Hi. destruct (nth_error ms (Z.to_nat (p * per_plane w + s))) as [m|] eqn:X; [eauto|].
    apply nth_error_None in X. nia.
Qed.
End Fix.
