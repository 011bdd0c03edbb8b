(** More proofs about instruments: footprints, pixels and attitude. *)
From Coq Require Import Reals ZArith List Bool Lia Lra Psatz.
From Coq Require Import Ranalysis Ratan.
From Verif Require Import Base RBase RFacts RTrig RTrigFacts Orbit_Model Mog_Model Geom_Spec Geom_Proofs Geom_Proofs2 Instr_Model Instr_Spec Instr_Proofs.
Import ListNotations.
Open Scope R_scope.

(** ** Footprint angles *)
Lemma linspace_open_in a b n x : a <= b -> In x (linspace_open a b n) -> a <= x /\ (x < b \/ a = b).
Proof.
  intros H Hin. unfold linspace_open in Hin. apply in_map_iff in Hin. destruct Hin as (k & <- & Hk). apply in_seq in Hk.
  assert (N : 0 < INR n) by (apply lt_0_INR; lia). assert (K : INR k < INR n) by (apply lt_INR; lia). pose proof (pos_INR k) as K0.
  replace (INR k * ((b - a) / INR n)) with ((b - a) * (INR k / INR n)) by (field; lra).
  assert (F : 0 <= INR k / INR n < 1).
  { split; [apply Rmult_le_pos; [lra|apply Rlt_le, Rinv_0_lt_compat; lra]|]. apply Rmult_lt_reg_r with (INR n); [lra|].
    replace (INR k / INR n * INR n) with (INR k) by (field; lra). lra. }
  destruct H as [H|H]; [|split; [rewrite H; nra|right; exact H]].
  split; [nra|left; nra].
Qed.
Lemma rect_angles_in A C n x : 0 < A -> 0 < C -> In x (footprint_angles true A C n) -> - rect_theta A C <= x <= 2 * PI - rect_theta A C.
Proof.
  intros HA HC Hin. destruct (theta_range A C HA HC) as [T _]. pose proof PI_RGT_0. unfold footprint_angles in Hin. set (th := rect_theta A C) in *.
  rewrite !in_app_iff in Hin. destruct Hin as [Hi|[Hi|[Hi|Hi]]]; apply linspace_open_in in Hi; lra.
Qed.
Lemma angles_length rect A C n : length (footprint_angles rect A C n) = (if rect then 4 * n else n)%nat.
Proof.
  unfold footprint_angles. destruct rect; unfold linspace_open, linspace_closed; rewrite ?app_length, ?map_length, ?seq_length; lia.
Qed.
(** Every vertex lies on one of the four side lines, overshooting by at most the stated amount. *)
Lemma rectangle_lemma pos vel C A roll pitch angle : 0 < C < 180 -> 0 < A < 180 -> - rect_theta A C <= angle <= 2 * PI - rect_theta A C ->
  exists x y, sights pos vel (ray pos vel C A roll pitch true angle) (tan_deg roll + x) (tan_deg pitch + y)
    /\ ((Rabs x = half_width C /\ Rabs y <= Rmax (half_width A) (half_width C * (A / C)))
        \/ (Rabs y = half_width A /\ Rabs x <= Rmax (half_width C) (half_width A * (C / A)))).
Proof.
  intros HC HA H. pose proof (half_width_pos C HC). pose proof (half_width_pos A HA). eexists _, _. split; [apply (ray_sights pos vel C A roll pitch true angle)|].
  destruct (theta_range A C ltac:(lra) ltac:(lra)) as [T E]. pose proof (rect_bound (rect_theta A C) (half_width A) (half_width C) angle T ltac:(lra) ltac:(lra) H) as B.
  rewrite E in B. replace (/ (A / C)) with (C / A) in B by (field; lra). exact B.
Qed.
Lemma square_lemma pos vel F roll pitch n r : 0 < F < 180 -> In r (footprint_rays pos vel F F roll pitch true n) ->
  exists x y, sights pos vel r (tan_deg roll + x) (tan_deg pitch + y) /\ on_rectangle (half_width F) (half_width F) x y.
Proof.
  intros HF Hin. unfold footprint_rays in Hin. apply in_map_iff in Hin. destruct Hin as (angle & <- & Hin). apply rect_angles_in in Hin; try lra.
  destruct (rectangle_lemma pos vel F F roll pitch angle HF HF Hin) as (x & y & S1 & B). exists x, y. split; [exact S1|].
  replace (F / F) with 1 in B by (field; lra). rewrite Rmult_1_r, Rmax_left in B by lra. exact B.
Qed.
(** tan x / x is strictly increasing. *)
Lemma tan_chord a c : 0 < a -> a < c -> c < PI / 2 -> c * tan a < a * tan c.
Proof.
  intros Ha Hac Hc.
  assert (D : forall x, - PI / 2 < x < PI / 2 -> derivable_pt_lim tan x (1 + tan x ^ 2)).
  { intros x Hx. destruct (derivable_pt_tan x Hx) as [l Hl] eqn:E. pose proof (derive_pt_tan x Hx) as DT. unfold derive_pt in DT. rewrite E in DT. assert (DT2 : l = 1 + tan x ^ 2) by exact DT. rewrite <- DT2. exact Hl. }
  destruct (MVT_cor2 tan (fun x => 1 + tan x ^ 2) 0 a Ha) as (x1 & E1 & B1); [intros x Hx; apply D; lra|].
  destruct (MVT_cor2 tan (fun x => 1 + tan x ^ 2) a c Hac) as (x2 & E2 & B2); [intros x Hx; apply D; lra|].
  rewrite tan_0 in E1. assert (T1 : 0 < tan x1) by (apply tan_gt_0; lra). assert (T2 : tan x1 < tan x2) by (apply tan_increasing; lra).
  assert (Q : tan x1 ^ 2 < tan x2 ^ 2) by nra. set (p := tan x1 ^ 2) in *. set (q := tan x2 ^ 2) in *.
  replace (tan a) with (a * (1 + p)) by lra. replace (tan c) with ((c - a) * (1 + q) + a * (1 + p)) by lra.
  assert (0 < a * ((c - a) * (q - p))) by (apply Rmult_lt_0_compat; [lra|apply Rmult_lt_0_compat; lra]). lra.
Qed.
Lemma half_width_chord A C : 0 < A -> A < C -> C < 180 -> half_width A < half_width C * (A / C).
Proof.
  intros HA HAC HC. unfold half_width. pose proof PI_RGT_0 as P.
  assert (K := tan_chord (A / 2 * (PI / 180)) (C / 2 * (PI / 180)) ltac:(nra) ltac:(nra) ltac:(nra)).
  set (ta := tan (A / 2 * (PI / 180))) in *. set (tc := tan (C / 2 * (PI / 180))) in *.
  assert (K2 : C * ta < A * tc) by (assert (0 < PI / 360) by lra; nra).
  apply Rmult_lt_reg_r with C; [lra|]. replace (tc * (A / C) * C) with (A * tc) by (field; lra). lra.
Qed.
(** The first vertex of a rectangle wider than long is outside the rectangle. *)
Lemma first_vertex_lemma pos vel C A roll pitch n r rest : 0 < A -> A < C -> C < 180 ->
  footprint_rays pos vel C A roll pitch true n = r :: rest ->
  exists x y, sights pos vel r (tan_deg roll + x) (tan_deg pitch + y) /\ Rabs x = half_width C /\ half_width A < Rabs y.
Proof.
  intros HA HAC HC E. destruct n as [|n]; [discriminate|]. 
  assert (E' : hd_error (footprint_rays pos vel C A roll pitch true (S n)) = Some (ray pos vel C A roll pitch true (- rect_theta A C))).
  { unfold footprint_rays, footprint_angles, linspace_open. cbn [seq map app hd_error]. f_equal. f_equal. rewrite Rmult_0_l. ring. }
  rewrite E in E'. cbn [hd_error] in E'. injection E' as ->. clear E.
  destruct (theta_range A C ltac:(lra) ltac:(lra)) as [T TE]. eexists _, _. split; [apply (ray_sights pos vel C A roll pitch true)|].
  set (th := rect_theta A C) in *. pose proof PI_RGT_0 as P. pose proof (half_width_pos C ltac:(lra)) as WC.
  unfold rect_n, rect_v. decide_cmp. split; [apply Rabs_pos_eq; lra|]. rewrite tan_neg, TE.
  replace (half_width C * - (A / C)) with (- (half_width C * (A / C))) by ring. rewrite Rabs_Ropp, Rabs_pos_eq; [now apply half_width_chord|].
  apply Rmult_le_pos; [lra|]. apply Rlt_le, Rdiv_lt_0_compat; lra.
Qed.
(** The elliptical ring closes. *)
Lemma ellipse_ring pos vel C A roll pitch n : (2 <= n)%nat -> exists r mid, footprint_rays pos vel C A roll pitch false n = r :: mid ++ [r].
Proof.
  intro H. destruct n as [|[|n]]; [lia|lia|]. unfold footprint_rays, footprint_angles, linspace_closed. rewrite map_map.
  replace (S (S n) - 1)%nat with (S n) by lia.
  set (g := fun k => ray pos vel C A roll pitch false (0 + INR k * ((2 * PI - 0) / INR (S n)))).
  assert (G : g (S n) = g 0%nat).
  { unfold g. replace (0 + INR (S n) * ((2 * PI - 0) / INR (S n))) with (2 * PI) by (field; apply not_0_INR; discriminate).
    replace (0 + INR 0 * ((2 * PI - 0) / INR (S n))) with 0 by (change (INR 0) with 0; ring). unfold ray. rewrite sin_2PI, cos_2PI, sin_0, cos_0. reflexivity. }
  clearbody g. exists (g 0%nat), (map g (seq 1 n)). replace (S (S n)) with (1 + n + 1)%nat by lia. rewrite !seq_app, !map_app. cbn [seq map app Nat.add]. now rewrite G.
Qed.

(** ** Angles in the local frame *)
Lemma norm_pos a : a <> mk_vec 0 0 0 -> 0 < norm a.
Proof.
  intro H. destruct a as [x y z]. unfold norm, dot. cbn [vx vy vz]. apply sqrt_lt_R0.
  destruct (Rle_lt_dec (x * x + y * y + z * z) 0) as [L|L]; [|exact L]. exfalso. apply H.
  assert (x * x = 0) by nra. assert (y * y = 0) by nra. assert (z * z = 0) by nra.
  f_equal; match goal with |- ?a = 0 => destruct (Rmult_integral a a); auto end.
Qed.
Lemma norm_sq a : norm a * norm a = dot a a.
Proof. unfold norm. apply sqrt_sqrt. destruct a as [x y z]. unfold dot. cbn. nra. Qed.
Lemma unit_direction a : a <> mk_vec 0 0 0 -> dot (direction a) (direction a) = 1.
Proof.
  intro H. pose proof (norm_pos a H) as N. pose proof (norm_sq a) as Q. unfold direction, scale, dot in *. cbn [vx vy vz] in *.
  transitivity (/ norm a * / norm a * (vx a * vx a + vy a * vy a + vz a * vz a)); [ring|]. rewrite <- Q. field. lra.
Qed.
Lemma frame_lemma pos vel : level pos vel -> dot (down pos) (down pos) = 1 /\ dot (forward vel) (forward vel) = 1 /\ dot (left pos vel) (left pos vel) = 1
  /\ dot (down pos) (forward vel) = 0 /\ dot (down pos) (left pos vel) = 0 /\ dot (forward vel) (left pos vel) = 0.
Proof.
  intros (N1 & N2 & O). pose proof (unit_direction _ N1) as U1. pose proof (unit_direction _ N2) as U2. fold (up pos) in U1. fold (forward vel) in U2.
  assert (UF : dot (up pos) (forward vel) = 0).
  { unfold up, forward, direction, scale, dot in *. cbn [vx vy vz] in *.
    transitivity (/ norm (tov pos) * / norm (tov vel) * (vx (tov pos) * vx (tov vel) + vy (tov pos) * vy (tov vel) + vz (tov pos) * vz (tov vel))); [ring|]. rewrite O. ring. }
  unfold left, down. destruct (up pos) as [a b c], (forward vel) as [d e f]. unfold dot, cross, scale in *. cbn [vx vy vz] in *.
  repeat split; try lra; try ring.
  transitivity ((a * a + b * b + c * c) * (d * d + e * e + f * f) - (a * d + b * e + c * f) * (a * d + b * e + c * f)); [ring|]. rewrite U1, U2, UF. ring.
Qed.
Lemma sight_dots pos vel r x y : level pos vel -> sights pos vel r x y ->
  dot (tov r) (down pos) = 1 /\ dot (tov r) (forward vel) = y /\ dot (tov r) (left pos vel) = x /\ dot (tov r) (tov r) = 1 + x * x + y * y.
Proof.
  intros L S1. destruct (frame_lemma pos vel L) as (D1 & F1 & L1 & DF & DL & FL). unfold sights in S1. rewrite S1.
  destruct (down pos) as [a b c], (forward vel) as [d e f], (left pos vel) as [g h k]. unfold dot, add, scale in *. cbn [vx vy vz] in *.
  split; [|split; [|split]].
  - transitivity ((a * a + b * b + c * c) + y * (a * d + b * e + c * f) + x * (a * g + b * h + c * k)); [ring|]. rewrite D1, DF, DL. ring.
  - transitivity ((a * d + b * e + c * f) + y * (d * d + e * e + f * f) + x * (d * g + e * h + f * k)); [ring|]. rewrite DF, F1, FL. ring.
  - transitivity ((a * g + b * h + c * k) + y * (d * g + e * h + f * k) + x * (g * g + h * h + k * k)); [ring|]. rewrite DL, FL, L1. ring.
  - transitivity ((a * a + b * b + c * c) + y * y * (d * d + e * e + f * f) + x * x * (g * g + h * h + k * k)
      + 2 * y * (a * d + b * e + c * f) + 2 * x * (a * g + b * h + c * k) + 2 * x * y * (d * g + e * h + f * k)); [ring|]. rewrite D1, F1, L1, DF, DL, FL. ring.
Qed.
Lemma off_boresight pos vel r x y t : level pos vel -> sights pos vel r x y -> 0 <= t < PI / 2 -> x * x + y * y = tan t * tan t -> between (tov r) (down pos) = t.
Proof.
  intros L S1 Ht Q. destruct (sight_dots pos vel r x y L S1) as (D1 & _ & _ & N). destruct (frame_lemma pos vel L) as (U & _).
  unfold between, norm. rewrite D1, U, N, sqrt_1. replace (1 + x * x + y * y) with (1 + tan t * tan t) by lra.
  assert (C : 0 < cos t) by (apply cos_gt_0; lra). pose proof (sin2_cos2 t) as Q2. unfold Rsqr in Q2.
  replace (1 + tan t * tan t) with (/ cos t * / cos t).
  2:{ unfold tan. replace (sin t / cos t * (sin t / cos t)) with (sin t * sin t * (/ cos t * / cos t)) by (field; lra). replace (sin t * sin t) with (1 - cos t * cos t) by lra. field. lra. }
  rewrite sqrt_square by (apply Rlt_le, Rinv_0_lt_compat; lra). replace (1 / (/ cos t * 1)) with (cos t) by (field; lra). apply acos_cos. lra.
Qed.
Lemma tan_deg_0 : tan_deg 0 = 0. Proof. unfold tan_deg. rewrite Rmult_0_l. apply tan_0. Qed.
Lemma pixel_sights p pos vel i j : let (cone, clock) := cone_clock p i j in
  sights pos vel (pixel_ray p pos vel i j) (tan_deg (pi_roll p) + cos clock * half_width cone) (tan_deg (pi_pitch p) + sin clock * half_width cone).
Proof. unfold pixel_ray. destruct (cone_clock p i j) as [cone clock]. exact (ray_sights pos vel cone cone _ _ false clock). Qed.
Lemma pixel_angle_lemma p pos vel i j : level pos vel -> pi_roll p = 0 -> pi_pitch p = 0 -> fst (cone_clock p i j) < 180 ->
  between (tov (pixel_ray p pos vel i j)) (down pos) = fst (cone_clock p i j) / 2 * (PI / 180).
Proof.
  intros L HR HP HC. pose proof (pixel_sights p pos vel i j) as S1. assert (C0 : 0 <= fst (cone_clock p i j)) by apply sqrt_pos.
  destruct (cone_clock p i j) as [cone clock]. cbn [fst] in *. rewrite HR, HP, tan_deg_0, !Rplus_0_l in S1. pose proof PI_RGT_0.
  apply (off_boresight _ _ _ _ _ _ L S1); [nra|]. fold (half_width cone). pose proof (sin2_cos2 clock) as Q. unfold Rsqr in Q.
  transitivity ((sin clock * sin clock + cos clock * cos clock) * (half_width cone * half_width cone)); [ring|]. rewrite Q. ring.
Qed.
(** Sides of the track. *)
Lemma pixel_side_lemma p pos vel i j : pointed_valid p = true -> level pos vel -> pi_roll p = 0 -> pi_pitch p = 0 -> 0 < fst (cone_clock p i j) < 180 ->
  exists k, 0 < k /\ dot (tov (pixel_ray p pos vel i j)) (left pos vel) = k * cross_offset p i /\ dot (tov (pixel_ray p pos vel i j)) (forward vel) = k * along_offset p j.
Proof.
  intros V L HR HP HC. pose proof (pixel_sights p pos vel i j) as S1. destruct (pixels_lemma p V) as (_ & _ & _ & _ & PC). destruct (PC i j) as [P1 P2].
  destruct (cone_clock p i j) as [cone clock]. cbn [fst snd] in *. rewrite HR, HP, tan_deg_0, !Rplus_0_l in S1.
  destruct (sight_dots _ _ _ _ _ L S1) as (_ & F & LL & _). exists (half_width cone / cone). pose proof (half_width_pos cone HC).
  split; [apply Rdiv_lt_0_compat; lra|]. rewrite F, LL, <- P1, <- P2. split; field; lra.
Qed.

(** ** Attitude *)
Lemma scale_scale a b v : scale a (scale b v) = scale (a * b) v.
Proof. unfold scale. cbn. f_equal; ring. Qed.
Lemma centre_sights p pos vel : sights pos vel (centre_ray p pos vel) (tan_deg (pi_roll p)) (tan_deg (pi_pitch p)).
Proof.
  pose proof (ray_sights pos vel 0 0 (pi_roll p) (pi_pitch p) false 0) as S1. cbn in S1.
  replace (half_width 0) with 0 in S1 by (unfold half_width; replace (0 / 2 * (PI / 180)) with 0 by (unfold Rdiv; ring); now rewrite tan_0). rewrite !Rmult_0_r, !Rplus_0_r in S1. exact S1.
Qed.
Lemma cross_forward_down pos vel : level pos vel -> cross (forward vel) (down pos) = left pos vel.
Proof. intros _. unfold left, down, cross, scale. cbn. f_equal; ring. Qed.
Lemma cross_left_down pos vel : level pos vel -> cross (left pos vel) (down pos) = scale (-1) (forward vel).
Proof.
  intro L. destruct (frame_lemma pos vel L) as (D1 & F1 & _ & DF & _). unfold left, down in *.
  destruct (up pos) as [a b c], (forward vel) as [d e f]. unfold cross, scale, dot in *. cbn [vx vy vz] in *.
  assert (UU : a * a + b * b + c * c = 1) by lra. assert (UF : a * d + b * e + c * f = 0) by lra.
  f_equal.
  - transitivity (a * (a * d + b * e + c * f) - d * (a * a + b * b + c * c)); [ring|]. rewrite UU, UF. ring.
  - transitivity (b * (a * d + b * e + c * f) - e * (a * a + b * b + c * c)); [ring|]. rewrite UU, UF. ring.
  - transitivity (c * (a * d + b * e + c * f) - f * (a * a + b * b + c * c)); [ring|]. rewrite UU, UF. ring.
Qed.
Lemma dot_comm u v : dot u v = dot v u. Proof. unfold dot. ring. Qed.
Lemma roll_lemma p pos vel : level pos vel -> pi_pitch p = 0 -> -90 < pi_roll p < 90 ->
  same_direction (tov (centre_ray p pos vel)) (rotate (forward vel) (pi_roll p * (PI / 180)) (down pos)).
Proof.
  intros L HP HR. pose proof (centre_sights p pos vel) as S1. rewrite HP, tan_deg_0 in S1. unfold sights in S1. rewrite S1.
  unfold rotate. rewrite (cross_forward_down pos vel L). destruct (frame_lemma pos vel L) as (_ & _ & _ & DF & _). rewrite (dot_comm (forward vel)), DF.
  set (x := pi_roll p * (PI / 180)). pose proof PI_RGT_0. assert (C : 0 < cos x) by (apply cos_gt_0; unfold x; nra).
  exists (/ cos x). split; [apply Rinv_0_lt_compat; lra|]. replace (tan_deg (pi_roll p)) with (sin x * / cos x) by reflexivity.
  destruct (down pos) as [a b c], (forward vel) as [d e f], (left pos vel) as [g h k]. unfold add, scale. cbn [vx vy vz]. f_equal; field; lra.
Qed.
Lemma pitch_lemma p pos vel : level pos vel -> pi_roll p = 0 -> -90 < pi_pitch p < 90 ->
  same_direction (tov (centre_ray p pos vel)) (rotate (left pos vel) (- pi_pitch p * (PI / 180)) (down pos)).
Proof.
  intros L HR HP. pose proof (centre_sights p pos vel) as S1. rewrite HR, tan_deg_0 in S1. unfold sights in S1. rewrite S1.
  unfold rotate. rewrite (cross_left_down pos vel L). destruct (frame_lemma pos vel L) as (_ & _ & _ & _ & DL & _). rewrite (dot_comm (left pos vel)), DL.
  set (x := pi_pitch p * (PI / 180)). replace (- pi_pitch p * (PI / 180)) with (- x) by (unfold x; ring). rewrite cos_neg, sin_neg.
  pose proof PI_RGT_0. assert (C : 0 < cos x) by (apply cos_gt_0; unfold x; nra).
  exists (/ cos x). split; [apply Rinv_0_lt_compat; lra|]. replace (tan_deg (pi_pitch p)) with (sin x * / cos x) by reflexivity.
  destruct (down pos) as [a b c], (forward vel) as [d e f], (left pos vel) as [g h k]. unfold add, scale. cbn [vx vy vz]. f_equal; field; lra.
Qed.

(** ** Projection *)
Lemma indices_lemma p : length (pixel_indices p) = (pi_cross_pixels p * pi_along_pixels p)%nat
  /\ forall i j, (i < pi_cross_pixels p)%nat -> (j < pi_along_pixels p)%nat -> nth_error (pixel_indices p) (i * pi_along_pixels p + j) = Some (i, j).
Proof.
  unfold pixel_indices. set (m := pi_along_pixels p). set (n := pi_cross_pixels p). split.
  - assert (G : forall l : list nat, length (flat_map (fun i => map (fun j => (i, j)) (seq 0 m)) l) = (length l * m)%nat).
    { induction l as [|a l IH]; cbn; auto. rewrite app_length, map_length, seq_length, IH. lia. }
    rewrite G, seq_length. reflexivity.
  - intros i j Hi Hj. assert (G : forall (l : list nat) i, nth_error l i <> None -> nth_error (flat_map (fun i => map (fun j => (i, j)) (seq 0 m)) l) (i * m + j) = option_map (fun a => (a, j)) (nth_error l i)).
    { clear i Hi. induction l as [|a l IH]; intros [|i] N; cbn in *; try congruence.
      - rewrite nth_error_app1 by (rewrite map_length, seq_length; lia). rewrite nth_error_map, (nth_error_nth' _ 0%nat) by (rewrite seq_length; lia). rewrite seq_nth by lia. reflexivity.
      - rewrite nth_error_app2 by (rewrite map_length, seq_length; lia). rewrite map_length, seq_length. replace (m + i * m + j - m)%nat with (i * m + j)%nat by lia. now apply IH. }
    rewrite G; rewrite (nth_error_nth' _ 0%nat) by (rewrite seq_length; lia); [|discriminate]. rewrite seq_nth by lia. reflexivity.
Qed.

Lemma np_arccos_cases x : np_arccos x = Some (acos x) \/ np_arccos x = None.
Proof. unfold np_arccos. destruct (Rleb (-1) x && Rleb x 1); auto. Qed.
Lemma projection_lemma (surfpt : v3 -> v3 -> R -> R -> R -> option v3) limb_points
  (found : forall pos r a c pt, surfpt pos r a a c = Some pt -> hit pos r a c pt)
  (missed : forall pos r a c pt, surfpt pos r a a c = None -> ~ hit pos r a c pt)
  pos vel C A roll pitch rect angle h :
  let r := ray pos vel C A roll pitch rect angle in
  let a := EARTH_EQUATORIAL_RADIUS + h in let c := EARTH_POLAR_RADIUS + h in
  let pt := projected_point surfpt limb_points pos vel C A roll pitch rect angle h in
  ((exists q, hit pos r a c q) -> hit pos r a c pt)
  /\ (~ (exists q, hit pos r a c q) ->
      let l := limb_points pos a a c (v_add (v_scale (sin (PI / 2 + angle)) (ray_v vel)) (v_scale (cos (PI / 2 + angle)) (ray_n pos vel))) in
      pt = fst l \/ pt = snd l).
Proof.
  intros r a c pt. unfold pt, projected_point. fold r a c. destruct (surfpt pos r a a c) as [q|] eqn:E.
  - split; [intros _; now apply found|]. intro N. exfalso. apply N. exists q. now apply found.
  - split; [intros [q Hq]; exfalso; exact (missed _ _ _ _ q E Hq)|]. intros _. destruct (limb_points pos a a c _) as [p1 p2]. cbn [fst snd].
    destruct (np_arccos (v_dot r p1 / v_norm r / v_norm p1)); auto. destruct (np_arccos (v_dot r p2 / v_norm r / v_norm p2)); auto.
    match goal with |- context [Rleb ?x ?y] => destruct (Rleb x y); auto end.
Qed.

(** ** Examples *)
Definition ex_pos : v3 := V3 7000000 0 0.
Definition ex_vel : v3 := V3 0 7500 0.
Lemma ex_level : level ex_pos ex_vel.
Proof.
  unfold level, tov, ex_pos, ex_vel, dot. cbn [v_x v_y v_z vx vy vz]. split; [|split; [|ring]]; intro H; injection H; intros; lra.
Qed.
Definition ex_pointed : pointed := mk_pointed 40 20 0 0 true 2 1 0 0.
Lemma ex_pointed_valid : pointed_valid ex_pointed = true.
Proof. unfold pointed_valid. rewrite !andb_true_iff, !Rltb_spec, !Rleb_spec, !Nat.leb_le. cbn. repeat split; try lra; lia. Qed.
(** Two pixels with half overlap; one pixel with half overlap. *)
Definition over_pointed : pointed := mk_pointed 40 20 0 0 true 2 1 (1 / 2) 0.
Lemma over_pointed_valid : pointed_valid over_pointed = true.
Proof. unfold pointed_valid. rewrite !andb_true_iff, !Rltb_spec, !Rleb_spec, !Nat.leb_le. cbn. repeat split; try lra; lia. Qed.
Definition one_pointed : pointed := mk_pointed 40 20 0 0 true 1 1 (1 / 2) 0.
Lemma one_pointed_valid : pointed_valid one_pointed = true.
Proof. unfold pointed_valid. rewrite !andb_true_iff, !Rltb_spec, !Rleb_spec, !Nat.leb_le. cbn. repeat split; try lra; lia. Qed.
Lemma ex_offsets : cross_offset ex_pointed 0 = -10 /\ cross_offset ex_pointed 1 = 10 /\ along_offset ex_pointed 0 = 0.
Proof. unfold cross_offset, along_offset, ex_pointed. cbn. repeat split; field. Qed.
Lemma ex_cone i : (i < 2)%nat -> fst (cone_clock ex_pointed i 0) = 10.
Proof.
  intro H. unfold cone_clock. cbn [fst]. destruct ex_offsets as (E0 & E1 & E2). rewrite E2.
  replace (cross_offset ex_pointed i ^ 2 + 0 ^ 2) with (10 * 10); [apply sqrt_square; lra|].
  destruct i as [|[|i]]; [rewrite E0|rewrite E1|lia]; ring.
Qed.
(** A pitched instrument. *)
Definition pitched : pointed := mk_pointed 40 20 0 45 true 1 1 0 0.
Lemma pitched_valid : pointed_valid pitched = true.
Proof. unfold pointed_valid. rewrite !andb_true_iff, !Rltb_spec, !Rleb_spec, !Nat.leb_le. cbn. repeat split; try lra; lia. Qed.
Lemma forward_component pos vel x : level pos vel -> dot (rotate (left pos vel) x (down pos)) (forward vel) = - sin x.
Proof.
  intro L. unfold rotate. rewrite (cross_left_down pos vel L). destruct (frame_lemma pos vel L) as (D1 & F1 & L1 & DF & DL & FL). rewrite (dot_comm (left pos vel)), DL.
  destruct (down pos) as [a b c], (forward vel) as [d e f], (left pos vel) as [g h k]. unfold dot, add, scale in *. cbn [vx vy vz] in *.
  transitivity (cos x * (a * d + b * e + c * f) - sin x * (d * d + e * e + f * f)); [ring|]. rewrite DF, F1. ring.
Qed.
Lemma pitch_wrong : ~ same_direction (tov (centre_ray pitched ex_pos ex_vel)) (rotate (left ex_pos ex_vel) (pi_pitch pitched * (PI / 180)) (down ex_pos)).
Proof.
  intros (t & Ht & E). pose proof ex_level as L. apply (f_equal (fun u => dot u (forward ex_vel))) in E.
  destruct (sight_dots _ _ _ _ _ L (centre_sights pitched ex_pos ex_vel)) as (_ & F & _). rewrite F in E.
  assert (K : dot (scale t (rotate (left ex_pos ex_vel) (pi_pitch pitched * (PI / 180)) (down ex_pos))) (forward ex_vel) = t * - sin (pi_pitch pitched * (PI / 180))).
  { rewrite <- (forward_component _ _ _ L). unfold dot, scale. cbn [vx vy vz]. ring. }
  rewrite K in E. cbn [pi_pitch pitched] in E. unfold tan_deg in E. pose proof PI_RGT_0.
  assert (0 < tan (45 * (PI / 180))) by (apply tan_gt_0; lra). assert (0 < sin (45 * (PI / 180))) by (apply sin_gt_0; lra). nra.
Qed.
(** Rolls beyond a right angle look the opposite way. *)
Definition upside : pointed := mk_pointed 40 20 180 0 true 1 1 0 0.
Lemma upside_valid : pointed_valid upside = true.
Proof. unfold pointed_valid. rewrite !andb_true_iff, !Rltb_spec, !Rleb_spec, !Nat.leb_le. cbn. repeat split; try lra; lia. Qed.
Lemma upside_down : tov (centre_ray upside ex_pos ex_vel) = down ex_pos /\ rotate (forward ex_vel) (pi_roll upside * (PI / 180)) (down ex_pos) = up ex_pos.
Proof.
  pose proof (centre_sights upside ex_pos ex_vel) as S1. unfold sights in S1. rewrite S1. cbn [pi_roll pi_pitch upside].
  rewrite tan_deg_0. unfold tan_deg. replace (180 * (PI / 180)) with PI by field. rewrite tan_PI. split.
  - unfold add, scale. destruct (down ex_pos) as [ux uy uz]. cbn [vx vy vz]. f_equal; ring.
  - unfold rotate. rewrite cos_PI, sin_PI, (dot_comm (forward ex_vel)). destruct (frame_lemma _ _ ex_level) as (_ & _ & _ & DF & _). rewrite DF.
    unfold down, add, scale. destruct (up ex_pos) as [ux uy uz]. cbn [vx vy vz]. f_equal; ring.
Qed.
Lemma ifov_one n fov o : (1 <= n)%nat -> 0 < fov -> 0 <= o < 1 -> (fov / INR n / (1 - o) <= fov <-> 1 <= INR n * (1 - o)).
Proof.
  intros N F O. pose proof (INR_pos n N) as N1. set (d := INR n * (1 - o)). assert (D : 0 < d) by (unfold d; nra).
  replace (fov / INR n / (1 - o)) with (fov / d) by (unfold d; field; lra). split; intro H.
  - apply (Rmult_le_compat_r d) in H; [|lra]. replace (fov / d * d) with fov in H by (field; lra). nra.
  - apply Rmult_le_reg_r with d; [lra|]. replace (fov / d * d) with fov by (field; lra). nra.
Qed.
Lemma ifov_lemma p : pointed_valid p = true ->
  (cross_ifov p <= pi_cross p <-> 1 <= INR (pi_cross_pixels p) * (1 - pi_cross_over p))
  /\ (along_ifov p <= pi_along p <-> 1 <= INR (pi_along_pixels p) * (1 - pi_along_over p)).
Proof. intro V. destruct (pointed_spec p V) as (C & A & NC & NA & OC & OA). split; apply ifov_one; auto; lra. Qed.
(** A root of a quadratic in [0, oo), if any. *)
Lemma quadratic_dec al be ga : {t | 0 <= t /\ al * (t * t) + 2 * be * t + ga = 0} + {forall t, 0 <= t -> al * (t * t) + 2 * be * t + ga <> 0}.
Proof.
  destruct (Req_EM_T al 0) as [Za|Na].
  - destruct (Req_EM_T be 0) as [Zb|Nb].
    + destruct (Req_EM_T ga 0) as [Zg|Ng]; [left; exists 0; split; [lra|rewrite Za, Zb, Zg; ring]|right; intros t _ H; rewrite Za, Zb in H; lra].
    + destruct (Rle_dec 0 (- ga / (2 * be))) as [L|L].
      * left. exists (- ga / (2 * be)). split; [exact L|]. rewrite Za. field. exact Nb.
      * right. intros t Ht H. apply L. replace (- ga / (2 * be)) with t; [exact Ht|]. rewrite Za in H.
        replace ga with (- (2 * be * t)) by lra. field. exact Nb.
  - destruct (Rlt_dec (be * be - al * ga) 0) as [D|D].
    + right. intros t _ H. assert (0 <= (al * t + be) * (al * t + be)) by (apply Rle_0_sqr). assert (E : al * (al * (t * t) + 2 * be * t + ga) = 0) by (rewrite H; ring). lra.
    + set (s := sqrt (be * be - al * ga)). assert (S2 : s * s = be * be - al * ga) by (apply sqrt_sqrt; lra).
      assert (R1 : forall t, al * t = - be + s \/ al * t = - be - s -> al * (t * t) + 2 * be * t + ga = 0).
      { intros t Ht. apply (Rmult_eq_reg_l al); [|exact Na]. rewrite Rmult_0_r.
        replace (al * (al * (t * t) + 2 * be * t + ga)) with ((al * t) * (al * t) + 2 * be * (al * t) + al * ga) by ring. destruct Ht as [-> | ->]; nra. }
      destruct (Rle_dec 0 ((- be + s) / al)) as [L1|L1]; [left; exists ((- be + s) / al); split; [exact L1|apply R1; left; field; exact Na]|].
      destruct (Rle_dec 0 ((- be - s) / al)) as [L2|L2]; [left; exists ((- be - s) / al); split; [exact L2|apply R1; right; field; exact Na]|].
      right. intros t Ht H. assert (E : (al * t + be - s) * (al * t + be + s) = 0).
      { transitivity (al * (al * (t * t) + 2 * be * t + ga)); [|rewrite H; ring]. replace ((al * t + be - s) * (al * t + be + s)) with (al * al * (t * t) + 2 * be * (al * t) + be * be - s * s) by ring. rewrite S2. ring. }
      apply Rmult_integral in E. destruct E as [E|E].
      * apply L1. replace ((- be + s) / al) with t; [exact Ht|]. replace (- be + s) with (al * t) by lra. field. exact Na.
      * apply L2. replace ((- be - s) / al) with t; [exact Ht|]. replace (- be - s) with (al * t) by lra. field. exact Na.
Qed.
Lemma surfpt_exists : exists surfpt : v3 -> v3 -> R -> R -> R -> option v3,
  (forall pos r a c pt, surfpt pos r a a c = Some pt -> hit pos r a c pt)
  /\ (forall pos r a c pt, surfpt pos r a a c = None -> ~ hit pos r a c pt)
  /\ exists q, hit ex_pos (ray ex_pos ex_vel 0 0 0 0 false 0) (EARTH_EQUATORIAL_RADIUS + 0) (EARTH_POLAR_RADIUS + 0) q.
Proof.
  assert (K : forall pos r a c, {q | hit pos r a c q} + {forall q, ~ hit pos r a c q}).
  { intros [x y z] [u v w] a c. unfold hit, tov, add, scale. cbn [v_x v_y v_z vx vy vz].
    set (k := / (a * a)). set (l := / (c * c)).
    destruct (quadratic_dec (k * (u * u + v * v) + l * (w * w)) (k * (x * u + y * v) + l * (z * w)) (k * (x * x + y * y) + l * (z * z) - 1)) as [(t & Ht & E)|N].
    - left. exists (V3 (x + t * u) (y + t * v) (z + t * w)). cbn [v_x v_y v_z]. split; [exists t; split; [exact Ht|reflexivity]|]. unfold Rdiv. fold k l. lra.
    - right. intros [p q r] [(t & Ht & E) H]. cbn [v_x v_y v_z] in *. injection E as -> -> ->. apply (N t Ht). unfold Rdiv in H. fold k l in H. lra. }
  exists (fun pos r a _ c => match K pos r a c with inleft (exist _ q _) => Some q | inright _ => None end). split; [|split].
  - intros pos r a c pt H. destruct (K pos r a c) as [[q Hq]|]; [injection H as <-; exact Hq|discriminate].
  - intros pos r a c pt H. destruct (K pos r a c) as [[q Hq]|N]; [discriminate|apply N].
  - exists (V3 EARTH_EQUATORIAL_RADIUS 0 0). unfold hit. cbn [v_x v_y v_z]. split.
    + exists (7000000 - EARTH_EQUATORIAL_RADIUS). split; [unfold EARTH_EQUATORIAL_RADIUS; lra|].
      pose proof (ray_sights ex_pos ex_vel 0 0 0 0 false 0) as S1. unfold sights in S1. rewrite S1.
      replace (half_width 0) with 0 by (unfold half_width; replace (0 / 2 * (PI / 180)) with 0 by (unfold Rdiv; ring); now rewrite tan_0).
      rewrite tan_deg_0. unfold down, up, direction, norm, tov, ex_pos, dot, scale, add. cbn [vx vy vz v_x v_y v_z].
      replace (7000000 * 7000000 + 0 * 0 + 0 * 0) with (7000000 * 7000000) by ring. rewrite sqrt_square by lra. f_equal; try field; ring.
    + unfold EARTH_EQUATORIAL_RADIUS, EARTH_POLAR_RADIUS. field.
Qed.

(** ** The clock angle *)
Lemma clock_range_lemma p i j : - PI < snd (cone_clock p i j) <= PI.
Proof. apply arctan2_range. Qed.
Lemma clock_lemma p i j : 0 < fst (cone_clock p i j) ->
  at_clock (fst (cone_clock p i j)) (snd (cone_clock p i j) * (180 / PI)) (cross_offset p i) (along_offset p j)
  /\ (at_clock (fst (cone_clock p i j)) (snd (cone_clock p i j)) (cross_offset p i) (along_offset p j) <-> snd (cone_clock p i j) = 0).
Proof.
  intro K. pose proof PI_RGT_0 as P. pose proof (clock_range_lemma p i j) as G.
  assert (Q : cross_offset p i = fst (cone_clock p i j) * cos (snd (cone_clock p i j)) /\ along_offset p j = fst (cone_clock p i j) * sin (snd (cone_clock p i j))).
  { unfold cone_clock. cbn [fst snd]. destruct (arctan2_polar (along_offset p j) (cross_offset p i)) as [PC PS].
    replace (cross_offset p i ^ 2 + along_offset p j ^ 2) with (cross_offset p i * cross_offset p i + along_offset p j * along_offset p j) by ring. auto. }
  destruct Q as [C S]. unfold at_clock. set (k := fst (cone_clock p i j)) in *. set (a := snd (cone_clock p i j)) in *. clearbody k a. split.
  - replace (a * (180 / PI) * (PI / 180)) with a by (field; lra). auto.
  - rewrite C, S. split.
    + intros [A B]. assert (A' : cos a = cos (a * (PI / 180))) by (apply (Rmult_eq_reg_l k); lra). assert (B' : sin a = sin (a * (PI / 180))) by (apply (Rmult_eq_reg_l k); lra).
      assert (Z : sin (a * (1 - PI / 180)) = 0).
      { replace (a * (1 - PI / 180)) with (a - a * (PI / 180)) by ring. rewrite sin_minus, <- A', <- B'. ring. }
      pose proof PI_4 as P4. assert (W : 0 < 1 - PI / 180 < 1) by lra. set (w := 1 - PI / 180) in *. clearbody w.
      destruct (Rtotal_order a 0) as [N|[N|N]]; [|exact N|].
      * assert (0 < - (a * w)) by nra. assert (- (a * w) < PI) by nra. pose proof (sin_gt_0 (- (a * w)) ltac:(lra) ltac:(lra)) as SG. rewrite sin_neg in SG. lra.
      * assert (0 < a * w) by nra. assert (a * w < PI) by nra. pose proof (sin_gt_0 (a * w) ltac:(lra) ltac:(lra)). lra.
    + intros ->. replace (0 * (PI / 180)) with 0 by ring. auto.
Qed.
Lemma ex_clock : snd (cone_clock ex_pointed 0 0) = PI.
Proof.
  destruct ex_offsets as (A & _ & B). unfold cone_clock. cbn [snd]. rewrite A, B. unfold arctan2.
  assert (E : Rltb 0 (-10) = false) by (apply Rltb_false; lra). rewrite E. assert (E2 : Rltb (-10) 0 = true) by (apply Rltb_spec; lra). rewrite E2.
  assert (E3 : Rleb 0 0 = true) by (apply Rleb_spec; lra). rewrite E3. unfold Rdiv. rewrite Rmult_0_l, atan_0. ring.
Qed.
