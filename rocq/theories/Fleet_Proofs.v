(** Proofs about the two-line elements of constellation members. *)
From Coq Require Import String Reals ZArith QArith Qreals List Bool Lra Lia.
From Verif Require Import Base BaseFacts RBase RFacts Tle_Model Tle_Spec Orbit_Model Orbit_Spec Orbit_Proofs2 Anomaly_Proofs AnomalyMean_Proofs
  Const_Model Const_Spec Const_Proofs Const_Proofs2 Const_Refute
  Export_Model Export_Spec Export_Proofs Export_Proofs3 Export_Witness Export_Proofs4 Export_Proofs5 Export_Props Fleet_Spec.
Import ListNotations.
Open Scope R_scope.

Lemma in_bound_range b x : in_bound b x = true -> 0 <= x < b.
Proof. unfold in_bound. intro H. apply andb_prop in H as [A B]. apply Rleb_spec in A. apply Rltb_spec in B. lra. Qed.

Lemma circular_lead_ok sun o alt inc raan nu ep : circular_lead sun o alt inc raan nu ep -> lead_ok o.
Proof. destruct o; cbn; tauto. Qed.

(** Derived members are valid. *)
Lemma derived_valid sun o a b o' : lead_derived sun o a b = Ok o' ->
  match o' with LCirc c => circ_valid c = true | LKep k => kep_valid k = true | _ => True end.
Proof.
  destruct o as [c|s|k|n l]; cbn; intro H.
  - destruct (circ_derived c a b) as [x|] eqn:E; [|discriminate]. injection H as <-. unfold circ_derived, make_circular, Orbit_Model.guard in E.
    destruct (circ_valid _) eqn:V in E; [|discriminate]. injection E as <-. exact V.
  - destruct (sso_derived sun s a b) as [x|] eqn:E; [|discriminate]. injection H as <-. unfold sso_derived in E.
    destruct (sso_inclination s); [|discriminate]. unfold make_circular, Orbit_Model.guard in E.
    destruct (circ_valid _) eqn:V in E; [|discriminate]. injection E as <-. exact V.
  - destruct (kep_derived k a b) as [x|] eqn:E; [|discriminate]. injection H as <-. unfold kep_derived, make_keplerian, Orbit_Model.guard in E.
    destruct (kep_valid _) eqn:V in E; [|discriminate]. injection E as <-. exact V.
  - injection H as <-. exact Logic.I.
Qed.

Lemma mapM_nth {A B} (f : A -> pyres B) l ys i y : mapM f l = Ok ys -> nth_error ys i = Some y -> exists x, f x = Ok y.
Proof.
  revert ys i. induction l as [|x l IH]; intros ys i H N; cbn in H.
  - injection H as <-. destruct i; discriminate.
  - destruct (f x) as [z|] eqn:E; [|discriminate]. cbn in H. destruct (mapM f l) as [zs|]; [|discriminate]. cbn in H.
    injection H as <-. destruct i as [|i]; cbn in N; [injection N as <-; eauto|]. eapply IH; eauto.
Qed.

Definition orbit_valid (o : lead) : Prop :=
  match o with LCirc c => circ_valid c = true | LKep k => kep_valid k = true | _ => True end.

Lemma walker_valid I sun (w : @walker I) ms i m : walker_members sun w = Ok ms -> nth_error ms i = Some m -> orbit_valid (mb_orbit m).
Proof.
  intros H N. destruct (mapM_nth _ _ _ _ _ H N) as [x E]. cbv beta zeta in E.
  destruct (lead_derived sun (w_orbit w) _ _) as [o|] eqn:D in E; [|discriminate]. cbn in E. injection E as <-. cbn. eapply derived_valid, D.
Qed.
Lemma train_valid_members I sun (t : @train I) ms i m : train_members sun t = Ok ms -> nth_error ms i = Some m -> orbit_valid (mb_orbit m).
Proof.
  intros H N. destruct (mapM_nth _ _ _ _ _ H N) as [x E]. cbv beta zeta in E. destruct (train_dm t) as [dm|]; [|discriminate]. cbn [bind] in E.
  destruct (lead_derived sun (tr_orbit t) _ _) as [o|] eqn:D in E; [|discriminate]. cbn in E. injection E as <-. cbn. eapply derived_valid, D.
Qed.

Lemma t2m0 nu : true_anomaly_to_mean_anomaly nu 0 = nu.
Proof. apply t2m_zero. Qed.

Section Fleet.
Variable epoch : pystr -> pystr -> pyres Z.
Variable export_tle : Z -> elset -> pyres (pystr * pystr).
Hypothesis PC : printer_contract export_tle.
Hypothesis EC : epoch_contract epoch export_tle.
Variables (rc : bool) (lazy : option bool) (sun : Z -> R).
Let ex := new_tle epoch export_tle.

(** One member of a circular constellation. *)
Lemma circle_member o o' alt inc raan nu ep a b n :
  circular_lead sun o alt inc raan nu ep -> 0 <= alt -> in_window ep -> Orbit_Model.get_mean_motion alt = Ok n ->
  advanced sun a b o o' -> orbit_valid o' ->
  exists v, converts ex sun rc lazy o' v /\ circle_read v inc (raan + b) (nu + a) n /\ epoch_read epoch v ep.
Proof.
  intros L A W N D V.
  assert (G : forall c, circ_valid c = true -> c_alt c = alt -> c_epoch c = ep -> c_inc c = inc ->
    same_degrees (circ_mean_anomaly c) (nu + a) -> same_degrees (c_raan c) (raan + b) ->
    exists v, snd (to_tle (circ_conv ex rc) rc lazy (mk_object c None)) = Ok v /\ circle_read v inc (raan + b) (nu + a) n /\ epoch_read epoch v ep).
  { intros c Vc <- <- <- S1 S2.
    destruct (c151_circular_partial epoch export_tle PC EC rc lazy c Vc A W) as (v & t & n' & E & N' & R & T & B & _).
    rewrite N in N'. injection N' as <-. exists v. split; [exact E|]. split; [|exists t; now split].
    unfold circ_valid in Vc. apply andb_prop in Vc as [Vc Vr]. apply andb_prop in Vc as [Vn _].
    apply in_bound_range in Vr, Vn. unfold circ_mean_anomaly in S1. rewrite t2m0 in S1.
    destruct R. split; try assumption.
    - exists (c_raan c). split; [exact S2|]. split; [exact Vr|]. assumption.
    - exists (c_nu c). split; [exact S1|]. split; [exact Vn|]. assumption. }
  destruct o as [c|s|k|m l]; cbn [circular_lead] in L; try contradiction; destruct o' as [c'|s'|k'|m' l']; cbn [advanced] in D; try contradiction.
  - destruct L as [_ ->]. cbn [c_alt c_epoch c_inc c_raan] in D. destruct D as (D1 & D2 & D3 & D4 & D5).
    unfold circ_mean_anomaly in D4 at 2. cbn [c_nu] in D4. rewrite t2m0 in D4. cbn [converts]. now apply G.
  - destruct L as (_ & L1 & L2 & L3 & L4 & L5). destruct D as (D1 & D2 & D3 & D4 & D5). cbn [converts]. apply G; try congruence; auto.
Qed.

Lemma motion_defined alt : 0 <= alt -> exists n, Orbit_Model.get_mean_motion alt = Ok n.
Proof. intro A. destruct (mean_motion_range alt A) as (n & E & _). eauto. Qed.

Lemma walker_tle_lemma I (w : @walker I) alt inc raan nu ep :
  circular_lead sun (w_orbit w) alt inc raan nu ep -> 0 <= alt -> in_window ep -> walker_ok w ->
  exists ms k n, walker_members sun w = Ok ms /\ Z.of_nat (length ms) = w_number w
    /\ ((k - 1) * w_planes w < w_number w <= k * w_planes w)%Z /\ Orbit_Model.get_mean_motion alt = Ok n
    /\ forall i m, nth_error ms i = Some m -> exists p s v, Z.of_nat i = (p * k + s)%Z /\ (0 <= s < k)%Z /\ (0 <= p < w_planes w)%Z
         /\ converts ex sun rc lazy (mb_orbit m) v /\ epoch_read epoch v ep
         /\ circle_read v inc (raan + IZR p * ((match w_config w with Delta => 360 | Star => 180 end) / IZR (w_planes w)))
              (nu + (IZR s * (360 / IZR k) + IZR p * (360 * IZR (w_spacing w) / IZR (w_number w)))) n.
Proof.
  intros L A W K. destruct (walker_structure_lemma sun w (circular_lead_ok _ _ _ _ _ _ _ L) K) as (ms & k & E & Len & B & S & _).
  destruct (motion_defined alt A) as [n N]. exists ms, k, n. split; [exact E|]. split; [exact Len|]. split; [exact B|]. split; [exact N|].
  intros i m H. destruct (S i m H) as (p & s & E1 & E2 & E3 & D).
  destruct (circle_member _ _ _ _ _ _ _ _ _ n L A W N D (walker_valid I sun w ms i m E H)) as (v & C & R & T).
  exists p, s, v. repeat (split; [assumption|]). exact R.
Qed.

Lemma train_tle_lemma I (t : @train I) alt inc raan nu ep :
  circular_lead sun (tr_orbit t) alt inc raan nu ep -> 0 <= alt -> in_window ep ->
  exists ms n, train_members sun t = Ok ms /\ length ms = tr_number t /\ Orbit_Model.get_mean_motion alt = Ok n
    /\ forall i m, nth_error ms i = Some m -> exists v,
         converts ex sun rc lazy (mb_orbit m) v /\ epoch_read epoch v ep
         /\ circle_read v inc (raan + (if tr_repeat t then INR i * (360 * (IZR (tr_interval t) / 86400000000)) else 0))
              (nu - INR i * (360 * n * (IZR (tr_interval t) / 86400000000))) n.
Proof.
  intros L A W. destruct (motion_defined alt A) as [n N].
  assert (M : lead_mean_motion (tr_orbit t) = Ok n).
  { destruct (tr_orbit t) as [c|s|k|m l]; cbn in L |- *; try contradiction.
    - destruct L as [_ ->]. exact N.
    - destruct L as (_ & -> & _). exact N. }
  destruct (train_lemma sun t n (circular_lead_ok _ _ _ _ _ _ _ L) M) as (ms & E & Len & S).
  exists ms, n. split; [exact E|]. split; [exact Len|]. split; [exact N|]. intros i m H. destruct (S i m H) as (_ & _ & _ & D).
  destruct (circle_member _ _ _ _ _ _ _ _ _ n L A W N D (train_valid_members I sun t ms i m E H)) as (v & C & R & T).
  exists v. split; [exact C|]. split; [exact T|]. exact R.
Qed.

(** Readings of two members compared. *)
Lemma apart_lemma c c' x y tol : reads_angle c x tol -> reads_angle c' y tol -> apart c c' (y - x) (2 * tol).
Proof.
  intros (a & (ja & Ea) & _ & p & Ep & Op) (b & (jb & Eb) & _ & q & Eq & Oq).
  exists p, q, (jb - ja)%Z. split; [exact Ep|]. split; [exact Eq|]. unfold off in *. rewrite minus_IZR.
  unfold Rabs in *. repeat destruct Rcase_abs; lra.
Qed.

Lemma converts_unique o v v' : converts ex sun rc lazy o v -> converts ex sun rc lazy o v' -> v = v'.
Proof. destruct o; cbn; intros; try contradiction; congruence. Qed.

Lemma div_mod_plane p s k i : Z.of_nat i = (p * k + s)%Z -> (0 <= s < k)%Z -> p = (Z.of_nat i / k)%Z /\ s = (Z.of_nat i mod k)%Z.
Proof.
  intros E S. split.
  - apply (Z.div_unique_pos (Z.of_nat i) k p s); [exact S | lia].
  - apply (Z.mod_unique_pos (Z.of_nat i) k p s); [exact S | lia].
Qed.

Lemma walker_apart_lemma I (w : @walker I) alt inc raan nu ep ms k i j m m' v v' :
  circular_lead sun (w_orbit w) alt inc raan nu ep -> 0 <= alt -> in_window ep -> walker_ok w ->
  walker_members sun w = Ok ms -> ((k - 1) * w_planes w < w_number w <= k * w_planes w)%Z ->
  nth_error ms i = Some m -> nth_error ms j = Some m' ->
  converts ex sun rc lazy (mb_orbit m) v -> converts ex sun rc lazy (mb_orbit m') v' ->
  let p := (Z.of_nat i / k)%Z in let p' := (Z.of_nat j / k)%Z in
  let s := (Z.of_nat i mod k)%Z in let s' := (Z.of_nat j mod k)%Z in
  apart (get_raan v 0) (get_raan v' 0) (IZR (p' - p) * ((match w_config w with Delta => 360 | Star => 180 end) / IZR (w_planes w))) (1 / 10000)
  /\ apart (Tle_Model.get_mean_anomaly v 0) (Tle_Model.get_mean_anomaly v' 0)
       (IZR (s' - s) * (360 / IZR k) + IZR (p' - p) * (360 * IZR (w_spacing w) / IZR (w_number w))) (1 / 10000).
Proof.
  intros L A W K E B Hi Hj Ci Cj p p' s s'.
  destruct (walker_tle_lemma I w alt inc raan nu ep L A W K) as (ms0 & k0 & n & E0 & _ & B0 & _ & S).
  rewrite E in E0. injection E0 as <-.
  assert (k0 = k) by (unfold walker_ok in K; nia). subst k0.
  destruct (S i m Hi) as (p1 & s1 & v1 & I1 & I2 & _ & C1 & _ & R1).
  destruct (S j m' Hj) as (p2 & s2 & v2 & J1 & J2 & _ & C2 & _ & R2).
  rewrite (converts_unique _ _ _ C1 Ci) in R1. rewrite (converts_unique _ _ _ C2 Cj) in R2.
  destruct (div_mod_plane p1 s1 k i I1 I2) as [P1 S1]. destruct (div_mod_plane p2 s2 k j J1 J2) as [P2 S2].
  fold p in P1. fold s in S1. fold p' in P2. fold s' in S2. subst p1 s1 p2 s2.
  destruct R1 as [_ _ R1 M1 _ _]. destruct R2 as [_ _ R2 M2 _ _]. rewrite !minus_IZR. split.
  - pose proof (apart_lemma _ _ _ _ _ R1 R2) as H. replace (1 / 10000) with (2 * (1 / 20000)) by lra.
    match type of H with apart _ _ ?d _ => match goal with |- apart _ _ ?d' _ => replace d' with d by ring end end. exact H.
  - pose proof (apart_lemma _ _ _ _ _ M1 M2) as H. replace (1 / 10000) with (2 * (1 / 20000)) by lra.
    match type of H with apart _ _ ?d _ => match goal with |- apart _ _ ?d' _ => replace d' with d by ring end end. exact H.
Qed.

(** Keplerian leads. *)
Lemma walker_kep_lemma I (w : @walker I) k0 :
  w_orbit w = LKep k0 -> kep_valid k0 = true -> k_ecc k0 <= 77 / 100 -> 0 <= c_alt (k_circ k0) -> in_window (c_epoch (k_circ k0)) -> walker_ok w ->
  exists ms k n, walker_members sun w = Ok ms /\ Z.of_nat (length ms) = w_number w
    /\ ((k - 1) * w_planes w < w_number w <= k * w_planes w)%Z /\ Orbit_Model.get_mean_motion (c_alt (k_circ k0)) = Ok n
    /\ forall i m, nth_error ms i = Some m -> exists p s v nu raan, Z.of_nat i = (p * k + s)%Z /\ (0 <= s < k)%Z /\ (0 <= p < w_planes w)%Z
         /\ converts ex sun rc lazy (mb_orbit m) v /\ epoch_read epoch v (c_epoch (k_circ k0))
         /\ reads_orbit v (c_inc (k_circ k0)) raan (k_argp k0) (k_ecc k0) (true_anomaly_to_mean_anomaly nu (k_ecc k0)) n
         /\ same_degrees raan (c_raan (k_circ k0) + IZR p * ((match w_config w with Delta => 360 | Star => 180 end) / IZR (w_planes w)))
         /\ same_degrees nu (mean_anomaly_to_true_anomaly (kep_mean_anomaly k0
              + (IZR s * (360 / IZR k) + IZR p * (360 * IZR (w_spacing w) / IZR (w_number w)))) (k_ecc k0)).
Proof.
  intros O V Ecc A W K.
  assert (L : lead_ok (w_orbit w)) by (rewrite O; cbn; split; [exact V | lra]).
  destruct (walker_structure_lemma sun w L K) as (ms & k & E & Len & B & S & _).
  destruct (motion_defined _ A) as [n N]. exists ms, k, n. split; [exact E|]. split; [exact Len|]. split; [exact B|]. split; [exact N|].
  intros i m H. destruct (S i m H) as (p & s & E1 & E2 & E3 & D). pose proof (walker_valid I sun w ms i m E H) as VM.
  rewrite O in D. destruct (mb_orbit m) as [c'|s'|k'|m' l']; cbn [advanced] in D; try contradiction. cbn [orbit_valid] in VM.
  destruct D as (D1 & D2 & D3 & D4 & D5 & D6 & D7).
  destruct (c151_keplerian_partial epoch export_tle PC EC rc lazy k' VM ltac:(rewrite D1; exact A) ltac:(rewrite D4; exact Ecc) ltac:(rewrite D2; exact W))
    as (v & t & n' & C & N' & R & T & BT).
  rewrite D1, N in N'. injection N' as <-. rewrite D3, D4, D5 in R. rewrite D2 in BT.
  exists p, s, v, (c_nu (k_circ k')), (c_raan (k_circ k')). repeat (split; [assumption|]).
  split; [exists t; now split|]. split; [exact R|]. split; assumption.
Qed.
End Fleet.

(** ** Witnesses *)
Definition walker_w : @walker Z := mk_walker [87%Z] (LCirc circ_example) [1%Z] Star 6 3 1.
Definition walker_s : @walker Z := mk_walker [87%Z] (LSso sso_example) [1%Z] Delta 6 3 1.
Definition walker_k : @walker Z := mk_walker [87%Z] (LKep kep_example) [1%Z] Delta 6 3 1.
Definition train_w : @train Z := mk_train [84%Z] (LCirc circ_example) [1%Z] 3 600000000 true.

Lemma fleet_witness_lemma : printer_contract witness_printer /\ epoch_contract witness_epoch witness_printer
  /\ (forall sun, circular_lead sun (w_orbit walker_w) 600000 98 30 200 (26084 * 86400000000))
  /\ (forall sun, exists inc, circular_lead sun (w_orbit walker_s) 600000 inc (sso_raan sun sso_example) 200 (26084 * 86400000000))
  /\ (forall sun, circular_lead sun (tr_orbit train_w) 600000 98 30 200 (26084 * 86400000000))
  /\ 0 <= 600000 /\ in_window (26084 * 86400000000) /\ walker_ok walker_w /\ walker_ok walker_s /\ walker_ok walker_k
  /\ w_orbit walker_k = LKep kep_example
  /\ (kep_valid kep_example = true /\ 0 <= c_alt (k_circ kep_example) /\ k_ecc kep_example <= 77 / 100 /\ in_window (c_epoch (k_circ kep_example))).
Proof.
  pose proof c151_witness as (P & E & KX & _). pose proof circ_example_ok as (C1 & _ & C3 & _). pose proof sso_example_ok as (S1 & _).
  assert (WC : forall sun, circular_lead sun (LCirc circ_example) 600000 98 30 200 (26084 * 86400000000)).
  { intro sun. split; [exact C1 | reflexivity]. }
  split; [exact P|]. split; [exact E|]. split; [exact WC|]. split.
  { intro sun. destruct (c150_sun_synchronous sun sso_example S1) as (inc & e & I & _). exists inc. cbn [w_orbit walker_s circular_lead].
    split; [exact S1|]. repeat (split; [reflexivity|]). split; [exact I | reflexivity]. }
  split; [exact WC|]. split; [lra|]. split; [exact C3|].
  split; [unfold walker_ok; cbn; lia|]. split; [unfold walker_ok; cbn; lia|]. split; [unfold walker_ok; cbn; lia|]. split; [reflexivity|]. exact KX.
Qed.

Lemma below_centre c : circ_valid c = true -> EARTH_MEAN_RADIUS + c_alt c <= 0 ->
  forall T (ex : elset -> pyres T) rc, circ_conv ex rc c = Raise ValueError.
Proof.
  intros V A T ex rc. unfold circ_conv, make_keplerian, Orbit_Model.guard.
  assert (K : kep_valid (mk_kep c 0 0) = true).
  { unfold kep_valid, in_bound. cbn [k_circ k_ecc k_argp]. rewrite V. cbn [andb].
    rewrite (proj2 (Rleb_spec 0 0)) by lra. cbn [andb]. now rewrite (proj2 (Rltb_spec 0 360)) by lra. }
  rewrite K. cbn [bind]. unfold to_tle. cbn [tle_cache fields].
  assert (E : kep_conv ex (mk_kep c 0 0) = Raise ValueError).
  { unfold kep_conv, kep_elset. cbn [k_circ k_ecc k_argp].
    assert (N : Orbit_Model.get_mean_motion (c_alt c) = Raise ValueError).
    { unfold Orbit_Model.get_mean_motion, Orbit_Model.get_orbit_period, compute_orbit_period.
      rewrite (proj2 (Rltb_false 0 (EARTH_MEAN_RADIUS + c_alt c)) A). reflexivity. }
    rewrite N. reflexivity. }
  rewrite E. destruct rc; reflexivity.
Qed.

Definition walker_below : @walker Z := mk_walker [87%Z] (LCirc (mk_circ (-7000000) 0 0 51 0)) [1%Z] Delta 6 3 1.
Lemma below_surface_lemma : forall sun, exists (w : @walker Z) ms m,
  make_walker w = Ok w /\ lead_ok (w_orbit w) /\ walker_members sun w = Ok ms /\ nth_error ms 0 = Some m
  /\ forall ex rc lazy v, ~ converts ex sun rc lazy (mb_orbit m) v.
Proof.
  intro sun.
  assert (L : lead_ok (w_orbit walker_below)).
  { cbn. unfold circ_valid, in_bound. cbn [c_nu c_inc c_raan].
    rewrite !(proj2 (Rleb_spec _ _)) by lra. rewrite !(proj2 (Rltb_spec _ _)) by lra. reflexivity. }
  destruct (walker_structure_lemma sun walker_below L) as (ms & k & E & Len & B & S & F); [unfold walker_ok; cbn; lia|].
  destruct (F 0 0)%Z as [m H]; [lia| |cbn; lia|]. { cbn in B. lia. }
  change (Z.to_nat (0 * k + 0)) with 0%nat in H.
  exists walker_below, ms, m. split; [reflexivity|]. split; [exact L|]. split; [exact E|]. split; [exact H|].
  intros ex rc lazy v C. destruct (S 0%nat m H) as (p & s & _ & _ & _ & D). pose proof (walker_valid Z sun walker_below ms 0 m E H) as V.
  destruct (mb_orbit m) as [c'|s'|k'|m' l']; cbn [advanced w_orbit walker_below] in D; try contradiction.
  destruct D as (D1 & _). cbn [c_alt] in D1. cbn [orbit_valid] in V. cbn [converts] in C.
  assert (A : EARTH_MEAN_RADIUS + c_alt c' <= 0).
  { rewrite D1. unfold EARTH_MEAN_RADIUS, EARTH_EQUATORIAL_RADIUS, EARTH_POLAR_RADIUS. lra. }
  unfold to_tle in C. cbn [tle_cache fields] in C. rewrite (below_centre c' V A) in C.
  destruct (match lazy with Some b => b | None => rc end); discriminate.
Qed.
