(** Proofs about instruments. *)
From Coq Require Import Reals ZArith List Bool Lia Lra Psatz.
From Verif Require Import Base RBase RFacts RTrig RTrigFacts Orbit_Model Mog_Model Geom_Spec Geom_Proofs Geom_Proofs2 Instr_Model Instr_Spec.
Import ListNotations.
Open Scope R_scope.

(** ** Validity *)
Lemma require_length req a b : length a = length b -> length (require req a b) = length b.
Proof. intro H. destruct req; cbn; auto. rewrite map_length, combine_length. lia. Qed.
Lemma require_nth req a b i x y : nth_error a i = Some x -> nth_error b i = Some y ->
  nth_error (require req a b) i = Some (match req with None => x | Some r => x && Bool.eqb y r end).
Proof.
  destruct req as [r|]; cbn; auto. revert a b. induction i as [|i IH]; intros [|x' a] [|y' b] Ha Hb; cbn in *; try discriminate.
  - injection Ha as ->. injection Hb as ->. reflexivity.
  - auto.
Qed.
Definition valid_at (q : requirement) (s : bool * R) : bool :=
  match req_self q with None => true | Some r => Bool.eqb (fst s) r end
  && match req_target q with None => true | Some r => Bool.eqb (Rltb 0 (snd s)) r end.
Lemma valid_list q track :
  require (req_target q) (require (req_self q) (map (fun _ => true) track) (map fst track)) (map (fun p => Rltb 0 (snd p)) track)
  = map (valid_at q) track.
Proof.
  set (l1 := require (req_self q) (map (fun _ => true) track) (map fst track)).
  assert (L1 : length l1 = length track) by (unfold l1; rewrite require_length; rewrite ?map_length; reflexivity).
  apply nth_ext with true true; [rewrite require_length; rewrite ?map_length; auto|].
  intros i Hi. rewrite require_length in Hi by (rewrite map_length; auto). rewrite map_length in Hi.
  destruct (nth_error track i) as [s|] eqn:Es; [|apply nth_error_None in Es; lia].
  assert (E1 : nth_error l1 i = Some (match req_self q with None => true | Some r => true && Bool.eqb (fst s) r end)).
  { unfold l1. apply require_nth; rewrite nth_error_map, Es; reflexivity. }
  assert (E2 := require_nth (req_target q) l1 (map (fun p => Rltb 0 (snd p)) track) i _ (Rltb 0 (snd s)) E1 ltac:(rewrite nth_error_map, Es; reflexivity)).
  rewrite (nth_error_nth _ _ _ E2), (nth_error_nth (map (valid_at q) track) i true (x := valid_at q s)) by (rewrite nth_error_map, Es; reflexivity).
  unfold valid_at. destruct (req_self q), (req_target q); cbn; rewrite ?andb_true_r; reflexivity.
Qed.
Lemma eqb_meets (b : bool) (Pr : Prop) req : (b = true <-> Pr) -> (match req with None => true | Some r => Bool.eqb b r end = true <-> meets req Pr).
Proof. intros H. destruct req as [[|]|]; cbn; destruct b; cbn; intuition congruence. Qed.
Lemma valid_at_spec q s : valid_at q s = true <-> meets (req_self q) (fst s = true) /\ meets (req_target q) (0 < snd s).
Proof.
  unfold valid_at. rewrite andb_true_iff. rewrite (eqb_meets (fst s) (fst s = true)) by reflexivity. rewrite (eqb_meets _ (0 < snd s)); [reflexivity|apply Rltb_spec].
Qed.
Lemma validity_lemma q track : track <> [] ->
  (forall s, track = [s] -> exists b, is_valid_observation q track = Ok (One b) /\ (b = true <-> meets (req_self q) (fst s = true) /\ meets (req_target q) (0 < snd s)))
  /\ ((2 <= length track)%nat -> exists l, is_valid_observation q track = Ok (Many l) /\ length l = length track
       /\ forall i s, nth_error track i = Some s -> exists b, nth_error l i = Some b
            /\ (b = true <-> meets (req_self q) (fst s = true) /\ meets (req_target q) (0 < snd s))
            /\ is_valid_observation q [s] = Ok (One b)).
Proof.
  intro N. unfold is_valid_observation. rewrite !valid_list. split.
  - intros s ->. cbn. exists (valid_at q s). split; [reflexivity|apply valid_at_spec].
  - intro L. replace (Nat.ltb 1 (length track)) with true by (symmetry; apply Nat.ltb_lt; lia). exists (map (valid_at q) track).
    split; [reflexivity|]. split; [apply map_length|]. intros i s H. exists (valid_at q s). split; [rewrite nth_error_map, H; reflexivity|].
    split; [apply valid_at_spec|]. rewrite valid_list. reflexivity.
Qed.

(** ** Pixels *)
Lemma pointed_spec p : pointed_valid p = true ->
  0 < pi_cross p <= 180 /\ 0 < pi_along p <= 180 /\ (1 <= pi_cross_pixels p)%nat /\ (1 <= pi_along_pixels p)%nat
  /\ 0 <= pi_cross_over p < 1 /\ 0 <= pi_along_over p < 1.
Proof. unfold pointed_valid. rewrite !andb_true_iff, !Rltb_spec, !Rleb_spec, !Nat.leb_le. tauto. Qed.
(** One direction: offset of pixel [k] of [n]. *)
Definition off (n : nat) (fov o : R) (k : R) : R := (1 / 2 + k - INR n / 2) * (1 - o) * fov / INR n.
Lemma INR_pos n : (1 <= n)%nat -> 1 <= INR n.
Proof. intro H. apply (le_INR 1). exact H. Qed.
Lemma off_step n fov o k : (1 <= n)%nat -> off n fov o (k + 1) - off n fov o k = (1 - o) * (fov / INR n).
Proof. intro H. pose proof (INR_pos n H). unfold off. field. lra. Qed.
Lemma off_strict n fov o k l : (1 <= n)%nat -> 0 < fov -> o < 1 -> k < l -> off n fov o k < off n fov o l.
Proof.
  intros H F O L. pose proof (INR_pos n H). unfold off. assert (0 < (1 - o) * fov / INR n) by (apply Rdiv_lt_0_compat; nra).
  replace ((1 / 2 + k - INR n / 2) * (1 - o) * fov / INR n) with ((1 / 2 + k - INR n / 2) * ((1 - o) * fov / INR n)) by (field; lra).
  replace ((1 / 2 + l - INR n / 2) * (1 - o) * fov / INR n) with ((1 / 2 + l - INR n / 2) * ((1 - o) * fov / INR n)) by (field; lra).
  apply Rmult_lt_compat_r; lra.
Qed.
Lemma off_sym n fov o k : (1 <= n)%nat -> off n fov o (INR n - 1 - k) = - off n fov o k.
Proof. intro H. pose proof (INR_pos n H). unfold off. field. lra. Qed.
Lemma off_inside n fov o k : (1 <= n)%nat -> 0 < fov -> 0 <= o < 1 -> 0 <= k <= INR n - 1 -> Rabs (off n fov o k) + (1 - o) * (fov / INR n) / 2 <= (1 - o) * (fov / 2).
Proof.
  intros H F O K. pose proof (INR_pos n H). unfold off.
  replace ((1 / 2 + k - INR n / 2) * (1 - o) * fov / INR n) with ((1 / 2 + k - INR n / 2) * ((1 - o) * fov / INR n)) by (field; lra).
  assert (Q : 0 < (1 - o) * fov / INR n) by (apply Rdiv_lt_0_compat; nra). rewrite Rabs_mult, (Rabs_pos_eq ((1 - o) * fov / INR n)) by lra.
  assert (B : Rabs (1 / 2 + k - INR n / 2) <= INR n / 2 - 1 / 2) by (apply Rabs_le; lra).
  set (q := (1 - o) * fov / INR n) in *. replace ((1 - o) * (fov / INR n) / 2) with (q / 2) by (unfold q; field; lra).
  replace ((1 - o) * (fov / 2)) with (INR n / 2 * q) by (unfold q; field; lra). nra.
Qed.
Lemma cross_off p i : cross_offset p i = off (pi_cross_pixels p) (pi_cross p) (pi_cross_over p) (INR i).
Proof. reflexivity. Qed.
Lemma along_off p j : along_offset p j = - off (pi_along_pixels p) (pi_along p) (pi_along_over p) (INR j).
Proof. unfold along_offset, off, Rdiv. ring. Qed.
Lemma index_range n i : (i < n)%nat -> 0 <= INR i <= INR n - 1.
Proof. intro H. pose proof (pos_INR i). pose proof (le_INR (S i) n H). rewrite S_INR in *. lra. Qed.
Lemma index_sym n i : (i < n)%nat -> INR (n - 1 - i) = INR n - 1 - INR i.
Proof. intro H. rewrite !minus_INR by lia. reflexivity. Qed.
Lemma pixels_lemma p : pointed_valid p = true ->
  (forall i i', (i < i' < pi_cross_pixels p)%nat -> cross_offset p i < cross_offset p i')
  /\ (forall j j', (j < j' < pi_along_pixels p)%nat -> along_offset p j' < along_offset p j)
  /\ (forall i, (i < pi_cross_pixels p)%nat -> cross_offset p (pi_cross_pixels p - 1 - i) = - cross_offset p i /\ Rabs (cross_offset p i) < pi_cross p / 2)
  /\ (forall j, (j < pi_along_pixels p)%nat -> along_offset p (pi_along_pixels p - 1 - j) = - along_offset p j /\ Rabs (along_offset p j) < pi_along p / 2)
  /\ (forall i j, fst (cone_clock p i j) * cos (snd (cone_clock p i j)) = cross_offset p i
        /\ fst (cone_clock p i j) * sin (snd (cone_clock p i j)) = along_offset p j).
Proof.
  intro V. destruct (pointed_spec p V) as (C & A & NC & NA & OC & OA).
  split; [|split; [|split; [|split]]].
  - intros i i' H. rewrite !cross_off. apply off_strict; auto; try lra. apply lt_INR. lia.
  - intros j j' H. rewrite !along_off. apply Ropp_lt_contravar, off_strict; auto; try lra. apply lt_INR. lia.
  - intros i H. split; [rewrite !cross_off, index_sym by auto; now apply off_sym|]. rewrite cross_off.
    pose proof (off_inside _ (pi_cross p) (pi_cross_over p) (INR i) NC ltac:(lra) OC (index_range _ _ H)).
    assert (0 < (1 - pi_cross_over p) * (pi_cross p / INR (pi_cross_pixels p))) by (pose proof (INR_pos _ NC); apply Rmult_lt_0_compat; [lra|apply Rdiv_lt_0_compat; lra]). nra.
  - intros j H. split; [rewrite !along_off, index_sym by auto; rewrite off_sym by auto; reflexivity|]. rewrite along_off, Rabs_Ropp.
    pose proof (off_inside _ (pi_along p) (pi_along_over p) (INR j) NA ltac:(lra) OA (index_range _ _ H)).
    assert (0 < (1 - pi_along_over p) * (pi_along p / INR (pi_along_pixels p))) by (pose proof (INR_pos _ NA); apply Rmult_lt_0_compat; [lra|apply Rdiv_lt_0_compat; lra]). nra.
  - intros i j. unfold cone_clock. cbn [fst snd]. destruct (arctan2_polar (along_offset p j) (cross_offset p i)) as [PC PS].
    replace (cross_offset p i ^ 2 + along_offset p j ^ 2) with (cross_offset p i * cross_offset p i + along_offset p j * along_offset p j) by ring. auto.
Qed.
Lemma spacing_lemma p i : pointed_valid p = true ->
  cross_offset p (S i) - cross_offset p i = (1 - pi_cross_over p) * (1 - pi_cross_over p) * cross_ifov p
  /\ along_offset p i - along_offset p (S i) = (1 - pi_along_over p) * (1 - pi_along_over p) * along_ifov p.
Proof.
  intro V. destruct (pointed_spec p V) as (C & A & NC & NA & OC & OA). pose proof (INR_pos _ NC). pose proof (INR_pos _ NA).
  rewrite !cross_off, !along_off, !S_INR. unfold cross_ifov, along_ifov. split.
  - rewrite off_step by auto. field. lra.
  - replace (- off (pi_along_pixels p) (pi_along p) (pi_along_over p) (INR i) - - off (pi_along_pixels p) (pi_along p) (pi_along_over p) (INR i + 1))
      with (off (pi_along_pixels p) (pi_along p) (pi_along_over p) (INR i + 1) - off (pi_along_pixels p) (pi_along p) (pi_along_over p) (INR i)) by ring.
    rewrite off_step by auto. field. lra.
Qed.

(** ** Lines of sight *)
Lemma norm_tov a : norm (tov a) = v_norm a. Proof. reflexivity. Qed.
Lemma b_down pos : tov (ray_b pos) = down pos.
Proof. unfold down, up, direction, ray_b, tov, v_scale, scale. rewrite <- norm_tov. unfold tov. cbn [v_x v_y v_z vx vy vz]. f_equal; ring. Qed.
Lemma v_forward vel : tov (ray_v vel) = forward vel. Proof. reflexivity. Qed.
Lemma n_left pos vel : tov (ray_n pos vel) = left pos vel.
Proof.
  unfold left, up, forward, direction, ray_n, ray_b, ray_v, tov, cross, v_cross, v_scale, scale. rewrite <- !norm_tov. unfold tov. cbn [v_x v_y v_z vx vy vz]. f_equal; ring.
Qed.
Lemma tov_add a b : tov (v_add a b) = add (tov a) (tov b). Proof. reflexivity. Qed.
Lemma tov_scale k a : tov (v_scale k a) = scale k (tov a). Proof. reflexivity. Qed.
Lemma ray_sights pos vel C A roll pitch rect angle : 
  sights pos vel (ray pos vel C A roll pitch rect angle)
    (tan_deg roll + (if rect then rect_n (rect_theta A C) (half_width A) (half_width C) angle else cos angle * half_width C))
    (tan_deg pitch + (if rect then rect_v (rect_theta A C) (half_width A) (half_width C) angle else sin angle * half_width A)).
Proof.
  unfold sights, ray. rewrite !tov_add, !tov_scale, b_down, v_forward, n_left. unfold half_width, tan_deg, radians.
  destruct (down pos) as [d1 d2 d3], (forward vel) as [f1 f2 f3], (left pos vel) as [l1 l2 l3]. unfold add, scale. cbn [vx vy vz]. f_equal; ring.
Qed.
Lemma half_width_pos x : 0 < x < 180 -> 0 < half_width x.
Proof. intro H. unfold half_width. pose proof PI_RGT_0. apply tan_gt_0; nra. Qed.
Lemma ellipse_lemma pos vel C A roll pitch angle : 0 < C < 180 -> 0 < A < 180 ->
  exists x y, sights pos vel (ray pos vel C A roll pitch false angle) (tan_deg roll + x) (tan_deg pitch + y)
    /\ on_ellipse (half_width C) (half_width A) x y
    /\ x / half_width C = cos angle /\ y / half_width A = sin angle.
Proof.
  intros HC HA. pose proof (half_width_pos C HC). pose proof (half_width_pos A HA). eexists _, _. split; [apply (ray_sights pos vel C A roll pitch false angle)|].
  assert (E1 : cos angle * half_width C / half_width C = cos angle) by (field; lra). assert (E2 : sin angle * half_width A / half_width A = sin angle) by (field; lra).
  unfold on_ellipse. rewrite E1, E2. split; [|auto]. pose proof (sin2_cos2 angle) as Q. unfold Rsqr in Q. lra.
Qed.

(** ** Rectangles *)
Lemma tan_mono x y : - (PI / 2) < x -> x <= y -> y < PI / 2 -> tan x <= tan y.
Proof. intros H1 [H|H] H2; [apply Rlt_le, tan_increasing; lra|subst; lra]. Qed.
Lemma tan_within x th : - th <= x <= th -> th < PI / 2 -> Rabs (tan x) <= tan th.
Proof.
  intros H T. apply Rabs_le. split; [rewrite <- tan_neg|]; apply tan_mono; lra.
Qed.
Lemma cot_within x th : 0 < th < PI / 2 -> - (PI / 2 - th) <= x <= PI / 2 - th -> Rabs (tan x) <= / tan th.
Proof.
  intros T H. pose proof (tan_within x (PI / 2 - th) H ltac:(lra)) as B.
  replace (/ tan th) with (tan (PI / 2 - th)); auto. unfold tan. rewrite sin_shift, cos_shift.
  assert (0 < sin th) by (apply sin_gt_0; lra). assert (0 < cos th) by (apply cos_gt_0; lra). field. lra.
Qed.
Lemma theta_range A C : 0 < A -> 0 < C -> 0 < rect_theta A C < PI / 2 /\ tan (rect_theta A C) = A / C.
Proof.
  intros HA HC. unfold rect_theta. assert (0 < A / C) by (apply Rdiv_lt_0_compat; lra). split; [|apply tan_atan].
  split; [rewrite <- atan_0; now apply atan_increasing|apply atan_bound].
Qed.
Lemma abs_prod t x m : 0 < t -> Rabs x <= m -> Rabs (t * x) <= t * m /\ Rabs (- t * x) <= t * m.
Proof.
  intros Ht Hx. rewrite !Rabs_mult, Rabs_Ropp, (Rabs_pos_eq t) by lra. assert (t * Rabs x <= t * m) by (apply Rmult_le_compat_l; lra). auto.
Qed.
Ltac decide_cmp := repeat match goal with
  | |- context [Rleb ?a ?b] => let E := fresh "E" in destruct (Rleb a b) eqn:E; [apply Rleb_spec in E|apply Rleb_false in E]; cbn [andb orb]; try lra
  | |- context [Rltb ?a ?b] => let E := fresh "E" in destruct (Rltb a b) eqn:E; [apply Rltb_spec in E|apply Rltb_false in E]; cbn [andb orb]; try lra
  end.
Lemma rect_bound th ta tc phi : 0 < th < PI / 2 -> 0 < ta -> 0 < tc -> - th <= phi <= 2 * PI - th ->
  (Rabs (rect_n th ta tc phi) = tc /\ Rabs (rect_v th ta tc phi) <= Rmax ta (tc * tan th))
  \/ (Rabs (rect_v th ta tc phi) = ta /\ Rabs (rect_n th ta tc phi) <= Rmax tc (ta * / tan th)).
Proof.
  intros T Ha Hc H. pose proof PI_RGT_0 as P.
  assert (A1 : Rabs ta = ta) by (apply Rabs_pos_eq; lra). assert (A2 : Rabs tc = tc) by (apply Rabs_pos_eq; lra).
  assert (A3 : Rabs (- ta) = ta) by (now rewrite Rabs_Ropp). assert (A4 : Rabs (- tc) = tc) by (now rewrite Rabs_Ropp).
  pose proof (Rmax_l ta (tc * tan th)) as M1. pose proof (Rmax_r ta (tc * tan th)) as M2. pose proof (Rmax_l tc (ta * / tan th)) as M3. pose proof (Rmax_r tc (ta * / tan th)) as M4.
  assert (K1 : forall x, - th <= x <= th -> Rabs (tc * tan x) <= Rmax ta (tc * tan th) /\ Rabs (- tc * tan x) <= Rmax ta (tc * tan th)).
  { intros x Hx. destruct (abs_prod tc (tan x) (tan th) Hc (tan_within x th Hx ltac:(lra))). lra. }
  assert (K2 : forall x, - (PI / 2 - th) <= x <= PI / 2 - th -> Rabs (ta * tan x) <= Rmax tc (ta * / tan th) /\ Rabs (- ta * tan x) <= Rmax tc (ta * / tan th)).
  { intros x Hx. destruct (abs_prod ta (tan x) (/ tan th) Ha (cot_within x th T Hx)). lra. }
  unfold rect_n, rect_v. decide_cmp.
  all: first [ left; split; [assumption|]; solve [lra | apply K1; lra] | right; split; [assumption|]; solve [lra | apply K2; lra] ].
Qed.
