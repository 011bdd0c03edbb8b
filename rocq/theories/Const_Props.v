(** Property theorems C26-C33, C103: member names, trains, Walker constellations. *)
From Coq Require Import String Reals ZArith List Bool Lra Lia.
From Verif Require Import Base RBase Tle_Model Orbit_Model Orbit_Spec Orbit_Proofs2 Const_Model Const_Spec Names_Proofs
  Const_Proofs Const_Proofs2 Const_Refute.
Import ListNotations.
Open Scope R_scope.

(** *** C26 *)
Theorem c26_names_ordered : forall name n a b, (0 <= a)%Z -> (a < b)%Z -> (b <= n)%Z ->
  length (zero_pad name n a) = length (zero_pad name n b)
  /\ str_lt (zero_pad name n a) (zero_pad name n b) /\ zero_pad name n a <> zero_pad name n b.
Proof. exact zero_pad_order. Qed.
Print Assumptions c26_names_ordered.

Theorem c26_names_decode : forall name n a, (0 <= a <= n)%Z ->
  exists d, zero_pad name n a = name ++ [32%Z] ++ d /\ length d = length (py_str n)
    /\ Forall (fun c => 48 <= c <= 57)%Z d /\ decimal_value d = a.
Proof. exact zero_pad_lemma. Qed.
Print Assumptions c26_names_decode.

Theorem c26_str : forall n, (0 <= n)%Z -> decimal_value (py_str n) = n.
Proof. exact py_str_value. Qed.
Print Assumptions c26_str.

Example c26_witness : zero_pad (lit "Sat") 100 7 = lit "Sat 007" /\ zero_pad (lit "Sat") 100 42 = lit "Sat 042"
  /\ zero_pad (lit "Sat") 9 3 = lit "Sat 3".
Proof. repeat split. Qed.

(** *** C27 *)
Theorem c27_train_members : forall I sun (t : @train I) n,
  lead_ok (tr_orbit t) -> lead_mean_motion (tr_orbit t) = Ok n ->
  exists ms, train_members sun t = Ok ms /\ length ms = tr_number t
  /\ (forall i m, nth_error ms i = Some m -> mb_instruments m = tr_instruments t
        /\ altitude_epoch (mb_orbit m) = altitude_epoch (tr_orbit t)
        /\ exists d, mb_name m = tr_name t ++ [32%Z] ++ d
             /\ Forall (fun c => 48 <= c <= 57)%Z d /\ decimal_value d = (Z.of_nat i + 1)%Z)
  /\ (forall i j m m', (i < j)%nat -> nth_error ms i = Some m -> nth_error ms j = Some m' ->
        str_lt (mb_name m) (mb_name m') /\ mb_name m <> mb_name m').
Proof. exact @train_count_lemma. Qed.
Print Assumptions c27_train_members.

Theorem c27_walker_members : forall I sun (w : @walker I), lead_ok (w_orbit w) -> walker_ok w ->
  exists ms, walker_members sun w = Ok ms /\ Z.of_nat (length ms) = w_number w
  /\ (forall i m, nth_error ms i = Some m -> mb_instruments m = w_instruments w
        /\ altitude_epoch (mb_orbit m) = altitude_epoch (w_orbit w)
        /\ exists d, mb_name m = w_name w ++ [32%Z] ++ d
             /\ Forall (fun c => 48 <= c <= 57)%Z d /\ decimal_value d = (Z.of_nat i + 1)%Z)
  /\ (forall i j m m', (i < j)%nat -> nth_error ms i = Some m -> nth_error ms j = Some m' ->
        str_lt (mb_name m) (mb_name m') /\ mb_name m <> mb_name m').
Proof. exact @walker_count_lemma. Qed.
Print Assumptions c27_walker_members.

Example c27_witness : lead_ok (tr_orbit train_a) /\ (exists n, lead_mean_motion (tr_orbit train_a) = Ok n)
  /\ tr_number train_a = 3%nat /\ lead_ok (w_orbit walker_54) /\ walker_ok walker_54.
Proof.
  split; [exact circ_a_valid|]. split; [exact train_a_mm|]. split; [reflexivity|]. split; [exact circ_a_valid|exact walker_54_ok].
Qed.

(** *** C28 *)
(** The interval is in microseconds; [n] is the lead orbit's mean motion in revolutions per day. *)
Theorem c28_train_spacing : forall I sun (t : @train I) n,
  lead_ok (tr_orbit t) -> lead_mean_motion (tr_orbit t) = Ok n ->
  exists ms, train_members sun t = Ok ms /\ length ms = tr_number t
    /\ forall i m, nth_error ms i = Some m -> (i < tr_number t)%nat
        /\ mb_name m = zero_pad (tr_name t) (Z.of_nat (tr_number t)) (Z.of_nat i + 1)
        /\ mb_instruments m = tr_instruments t
        /\ advanced sun (- (INR i * (360 * n * (IZR (tr_interval t) / 86400000000))))
             (if tr_repeat t then INR i * (360 * (IZR (tr_interval t) / 86400000000)) else 0) (tr_orbit t) (mb_orbit m).
Proof. exact @train_lemma. Qed.
Print Assumptions c28_train_spacing.
Example c28_witness : forall sun, lead_ok (tr_orbit train_a) /\ exists n ms, lead_mean_motion (tr_orbit train_a) = Ok n
  /\ train_members sun train_a = Ok ms /\ length ms = 3%nat.
Proof.
  intro sun. split; [exact circ_a_valid|]. destruct train_a_mm as [n E]. destruct (c28_train_spacing _ sun train_a n circ_a_valid E) as (ms & M & L & _).
  exists n, ms. auto.
Qed.

(** *** C29 *)
Theorem c29_walker_validation : forall I (w : @walker I),
  (make_walker w = Ok w <-> (1 <= w_planes w <= w_number w /\ 0 <= w_spacing w < w_planes w)%Z)
  /\ (~ (1 <= w_planes w <= w_number w /\ 0 <= w_spacing w < w_planes w)%Z -> make_walker w = Raise ValidationError).
Proof. exact @make_walker_lemma. Qed.
Print Assumptions c29_walker_validation.

Example c29_witness : make_walker walker_54 = Ok walker_54
  /\ make_walker (mk_walker [] (LCirc circ_a) [1%Z] Star 5 4 4) = Raise ValidationError.
Proof. split; reflexivity. Qed.

(** *** C30 *)
(** Satellite number p*k+s, with k satellites per plane, is slot s of plane p; every index up to the
    number of satellites is used, so every plane but the last is full. *)
Theorem c30_walker_structure : forall I sun (w : @walker I), lead_ok (w_orbit w) -> walker_ok w ->
  exists ms k, walker_members sun w = Ok ms /\ Z.of_nat (length ms) = w_number w
    /\ ((k - 1) * w_planes w < w_number w <= k * w_planes w)%Z
    /\ (forall i m, nth_error ms i = Some m -> exists p s, Z.of_nat i = (p * k + s)%Z /\ (0 <= s < k)%Z /\ (0 <= p < w_planes w)%Z
         /\ advanced sun (IZR s * (360 / IZR k) + IZR p * (360 * IZR (w_spacing w) / IZR (w_number w)))
              (IZR p * ((match w_config w with Delta => 360 | Star => 180 end) / IZR (w_planes w))) (w_orbit w) (mb_orbit m))
    /\ (forall p s, (0 <= p)%Z -> (0 <= s < k)%Z -> (p * k + s < w_number w)%Z ->
         exists m, nth_error ms (Z.to_nat (p * k + s)) = Some m).
Proof. exact @walker_structure_lemma. Qed.
Print Assumptions c30_walker_structure.
Example c30_witness : forall sun, lead_ok (w_orbit walker_54) /\ walker_ok walker_54
  /\ exists ms, walker_members sun walker_54 = Ok ms /\ Z.of_nat (length ms) = 5%Z.
Proof.
  intro sun. split; [exact circ_a_valid|]. split; [exact walker_54_ok|].
  destruct (c30_walker_structure _ sun walker_54 circ_a_valid walker_54_ok) as (ms & k & E & L & _). exists ms. auto.
Qed.

(** *** C31 *)
(** Five satellites in four planes occupy only three. *)
Theorem c31_planes_used_refuted : forall sun, exists (w : @walker Z) ms nodes,
  make_walker w = Ok w /\ lead_ok (w_orbit w) /\ walker_members sun w = Ok ms
  /\ map (fun m => node_of (mb_orbit m)) ms = map Some nodes /\ ~ plane_count nodes (Z.to_nat (w_planes w)).
Proof. exact walker_planes_refuted_lemma. Qed.
Print Assumptions c31_planes_used_refuted.

(** The requested number of planes is used exactly when P-1 full planes cannot hold the satellites
    (k = ceil(T/P) satellites per plane), in particular when P divides T. *)
Theorem c31_planes_used_partial : forall I sun (w : @walker I) ms nodes, lead_ok (w_orbit w) -> walker_ok w ->
  walker_members sun w = Ok ms -> map (fun m => node_of (mb_orbit m)) ms = map Some nodes ->
  forall k, ((k - 1) * w_planes w < w_number w <= k * w_planes w)%Z ->
  (plane_count nodes (Z.to_nat (w_planes w)) <-> (w_planes w - 1) * k < w_number w)%Z.
Proof. exact @walker_planes_iff_lemma. Qed.
Print Assumptions c31_planes_used_partial.

Theorem c31_nodes_defined : forall I sun (w : @walker I) ms, lead_ok (w_orbit w) -> walker_ok w ->
  walker_members sun w = Ok ms -> exists nodes, map (fun m => node_of (mb_orbit m)) ms = map Some nodes.
Proof. exact @walker_nodes. Qed.
Print Assumptions c31_nodes_defined.
(** Six satellites in four planes fill only three of them; eight fill all four. *)
Example c31_witness : forall sun, let w n := mk_walker (I := Z) [] (LCirc circ_a) [1%Z] Delta n 4 1 in
  (forall n, In n [6; 8]%Z -> lead_ok (w_orbit (w n)) /\ walker_ok (w n) /\ ((2 - 1) * w_planes (w n) < n <= 2 * w_planes (w n))%Z
     /\ exists ms nodes, walker_members sun (w n) = Ok ms /\ map (fun m => node_of (mb_orbit m)) ms = map Some nodes)
  /\ ~ ((w_planes (w 6%Z) - 1) * 2 < 6)%Z /\ ((w_planes (w 8%Z) - 1) * 2 < 8)%Z.
Proof.
  intros sun w. split; [|cbn; lia]. intros n N.
  assert (V : lead_ok (w_orbit (w n))) by exact circ_a_valid.
  assert (W : walker_ok (w n)) by (unfold walker_ok; cbn; destruct N as [<-|[<-|[]]]; lia).
  split; [exact V|]. split; [exact W|]. split; [cbn; destruct N as [<-|[<-|[]]]; lia|].
  destruct (c27_walker_members _ sun (w n) V W) as (ms & E & _). destruct (c31_nodes_defined _ sun (w n) ms V W E) as [nodes D].
  exists ms, nodes. auto.
Qed.

(** *** C32 *)
Theorem c32_members_distinct_partial : forall I sun (w : @walker I) ms,
  lead_ok (w_orbit w) -> injective_ok (w_orbit w) -> walker_ok w -> walker_members sun w = Ok ms ->
  forall i j m m', i <> j -> nth_error ms i = Some m -> nth_error ms j = Some m' -> ~ coincide (mb_orbit m) (mb_orbit m').
Proof. exact @walker_distinct_lemma. Qed.
Print Assumptions c32_members_distinct_partial.

(** Missing above: Keplerian lead orbits with eccentricity over 1/2, for which it is false: for some
    eccentricity in [1/2, 1] the truncated series sends two of six members to one place. *)
Theorem c32_members_distinct_refuted : forall sun, exists (w : @walker Z) ms m m',
  make_walker w = Ok w /\ lead_ok (w_orbit w)
  /\ walker_members sun w = Ok ms /\ nth_error ms 0 = Some m /\ nth_error ms 1 = Some m'
  /\ coincide (mb_orbit m) (mb_orbit m').
Proof. exact walker_coincide_lemma. Qed.
Print Assumptions c32_members_distinct_refuted.

Example c32_witness : lead_ok (LKep (mk_kep circ_b (3/10) 90)) /\ injective_ok (LKep (mk_kep circ_b (3/10) 90)).
Proof. exact kep_03_ok. Qed.

(** *** C33 *)
Theorem c33_walker_closes : forall I sun (w : @walker I) ms, lead_ok (w_orbit w) -> walker_ok w -> w_config w = Delta ->
  (exists q, w_number w = q * w_planes w)%Z -> walker_members sun w = Ok ms ->
  exists sigma : nat -> nat,
    (forall i, (i < length ms)%nat -> (sigma i < length ms)%nat)
    /\ (forall i j, (i < length ms)%nat -> (j < length ms)%nat -> sigma i = sigma j -> i = j)
    /\ (forall i m m', nth_error ms i = Some m -> nth_error ms (sigma i) = Some m' ->
         exists a b a' b', advanced sun a b (w_orbit w) (mb_orbit m) /\ advanced sun a' b' (w_orbit w) (mb_orbit m')
           /\ same_degrees a' (a + 360 * IZR (w_spacing w) / IZR (w_number w)) /\ same_degrees b' (b + 360 / IZR (w_planes w))).
Proof. exact @walker_closes_lemma. Qed.
Print Assumptions c33_walker_closes.

Example c33_witness : let w := mk_walker (I := Z) [] (LCirc circ_a) [1%Z] Delta 24 6 1 in
  walker_ok w /\ w_config w = Delta /\ exists q, (w_number w = q * w_planes w)%Z.
Proof. cbv zeta. split; [unfold walker_ok; simpl; lia|]. split; [reflexivity|]. exists 4%Z. reflexivity. Qed.

(** *** C103 *)
Theorem c103_train_ground_track_refuted : forall sun, exists (t : @train Z) ms m y,
  train_valid t = true /\ tr_repeat t = true /\ lead_ok (tr_orbit t) /\ train_members sun t = Ok ms /\ nth_error ms 1 = Some m
  /\ node_of (mb_orbit m) = Some y
  /\ ~ same_degrees (earth_fixed y (IZR (tr_interval t) / 1000000)) (earth_fixed (base_node sun (tr_orbit t)) 0).
Proof. exact train_ground_track_refuted_lemma. Qed.
Print Assumptions c103_train_ground_track_refuted.

(** The offset is exactly the difference of a solar and a sidereal day over the elapsed time
    (about 0.04 degrees per hour). *)
Theorem c103_train_ground_track_offset_partial : forall I sun (t : @train I) n ms i m,
  lead_ok (tr_orbit t) -> lead_mean_motion (tr_orbit t) = Ok n ->
  tr_repeat t = true -> train_members sun t = Ok ms -> nth_error ms i = Some m ->
  exists y, node_of (mb_orbit m) = Some y /\
    let dt := INR i * (IZR (tr_interval t) / 1000000) in
    same_degrees (earth_fixed y dt) (earth_fixed (base_node sun (tr_orbit t)) 0 + 360 * dt * (1 / 86400 - 1 / EARTH_SIDEREAL_DAY_S)).
Proof. exact @train_ground_track_lemma. Qed.
Print Assumptions c103_train_ground_track_offset_partial.
Example c103_witness : forall sun, lead_ok (tr_orbit train_a) /\ tr_repeat train_a = true
  /\ exists n ms m, lead_mean_motion (tr_orbit train_a) = Ok n /\ train_members sun train_a = Ok ms /\ nth_error ms 2 = Some m.
Proof.
  intro sun. split; [exact circ_a_valid|]. split; [reflexivity|]. destruct train_a_mm as [n E].
  destruct (c28_train_spacing _ sun train_a n circ_a_valid E) as (ms & M & L & _). cbn in L.
  destruct (nth_error ms 2) as [m|] eqn:N; [exists n, ms, m; auto|]. apply nth_error_None in N. lia.
Qed.
