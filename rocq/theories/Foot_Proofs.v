(** Proofs about footprints, limbs and pixel arrays. *)
From Coq Require Import Reals ZArith List Bool Lra Lia Psatz.
From Verif Require Import Base BaseFacts RBase RFacts RTrig RTrigFacts Mog_Model Geom_Spec Instr_Model Instr_Spec Instr_Proofs Instr_Proofs2 Poly_Model Poly_Spec Poly_Proofs Poly_Proofs2 Foot_Model Foot_Spec.
Import ListNotations.
Open Scope R_scope.

(** ** The ellipsoid *)
Lemma quad_polar a c p : polar a c p p = quad a c p. Proof. reflexivity. Qed.
Lemma polar_sym a c p q : polar a c p q = polar a c q p. Proof. unfold polar, Rdiv. ring. Qed.
Lemma polar_add a c p q r : polar a c (add p q) r = polar a c p r + polar a c q r.
Proof. unfold polar, add, Rdiv. cbn. ring. Qed.
Lemma polar_sub a c p q r : polar a c (sub p q) r = polar a c p r - polar a c q r.
Proof. unfold polar, sub, Rdiv. cbn. ring. Qed.
Lemma polar_scale a c k p r : polar a c (scale k p) r = k * polar a c p r.
Proof. unfold polar, scale, Rdiv. cbn. ring. Qed.
Lemma quad_pos a c p : 0 < a -> 0 < c -> p <> mk_vec 0 0 0 -> 0 < quad a c p.
Proof.
  intros A C N. unfold quad. assert (IA : 0 < / (a * a)) by (apply Rinv_0_lt_compat; nra). assert (IC : 0 < / (c * c)) by (apply Rinv_0_lt_compat; nra).
  unfold Rdiv. destruct p as [x y z]. cbn. pose proof (Rle_0_sqr x) as SX. pose proof (Rle_0_sqr y) as SY. pose proof (Rle_0_sqr z) as SZ. unfold Rsqr in *.
  destruct (Req_dec x 0) as [->|X]; [|assert (0 < x * x) by nra; nra].
  destruct (Req_dec y 0) as [->|Y]; [|assert (0 < y * y) by nra; nra].
  destruct (Req_dec z 0) as [->|Z]; [now elim N|assert (0 < z * z) by nra; nra].
Qed.
Lemma horizon_lemma a c eye p : 0 < a -> 0 < c -> 1 < quad a c eye -> quad a c p = 1 -> polar a c p eye = 1 -> on_horizon a c eye p.
Proof.
  intros A C O Q P. split; [exact Q|]. intros s H.
  assert (W : 0 < quad a c (sub p eye)).
  { apply quad_pos; [exact A|exact C|]. intro E. assert (p = eye) as ->; [|lra]. destruct p as [x y z], eye as [u v w]. unfold sub in E. cbn in E. injection E as E1 E2 E3. f_equal; lra. }
  assert (EQ : quad a c (add eye (scale s (sub p eye))) = 1 + (s - 1) * (s - 1) * quad a c (sub p eye)).
  { replace (add eye (scale s (sub p eye))) with (add p (scale (s - 1) (sub p eye))).
    2:{ unfold add, scale, sub. cbn. f_equal; ring. }
    rewrite <- !quad_polar, polar_add, polar_scale, (polar_sym a c p), (polar_sym a c (sub p eye) (add _ _)), !polar_add, !polar_scale.
    rewrite (polar_sym a c p (sub p eye)), !(polar_sub a c p eye p), (polar_sym a c eye p), quad_polar, Q, P. ring. }
  rewrite EQ in H. assert ((s - 1) * (s - 1) <= 0) by nra. nra.
Qed.
Lemma horizon_not_nadir a c eye p k : on_horizon a c eye p -> sub p eye <> scale k eye.
Proof.
  intros [Q H] E. destruct (Req_dec k 0) as [->|K].
  - assert (1 = 0); [|lra]. symmetry. apply (H 0). replace (add eye (scale 0 (sub p eye))) with p.
    + lra.
    + rewrite E. destruct p as [x y z], eye as [u v w]. unfold sub, scale, add in *. cbn in *. injection E as E1 E2 E3. f_equal; lra.
  - assert (S : - / k = 1).
    { apply H. rewrite E. unfold quad, add, scale. cbn. replace (vx eye + - / k * (k * vx eye)) with 0 by (field; exact K).
      replace (vy eye + - / k * (k * vy eye)) with 0 by (field; exact K). replace (vz eye + - / k * (k * vz eye)) with 0 by (field; exact K). unfold Rdiv. lra. }
    assert (k = -1) as ->. { apply Rmult_eq_reg_l with (/ k); [|now apply Rinv_neq_0_compat]. rewrite Rinv_l by exact K. lra. }
    assert (p = mk_vec 0 0 0) as ->. { destruct p as [x y z], eye as [u v w]. unfold sub, scale in E. cbn in E. injection E as E1 E2 E3. f_equal; lra. }
    unfold quad in Q. cbn in Q. unfold Rdiv in Q. lra.
Qed.

(** ** Limb polygons *)
Lemma radii_pos e : - EARTH_POLAR_RADIUS < e -> 0 < EARTH_EQUATORIAL_RADIUS + e /\ 0 < EARTH_POLAR_RADIUS + e.
Proof. unfold EARTH_EQUATORIAL_RADIUS, EARTH_POLAR_RADIUS. lra. Qed.
Lemma limb_ring_lemma edlimb n e pos p : limb_ellipse edlimb -> - EARTH_POLAR_RADIUS < e ->
  1 < quad (EARTH_EQUATORIAL_RADIUS + e) (EARTH_POLAR_RADIUS + e) (tov pos) -> In p (limb_ring edlimb n e pos) ->
  on_horizon (EARTH_EQUATORIAL_RADIUS + e) (EARTH_POLAR_RADIUS + e) (tov pos) (tov p).
Proof.
  intros H E O I. destruct (radii_pos e E) as [A C]. unfold limb_ring in I.
  specialize (H (EARTH_EQUATORIAL_RADIUS + e) (EARTH_POLAR_RADIUS + e) pos). destruct (edlimb _ _ _ pos) as [[ce ma] mi]. apply in_map_iff in I. destruct I as (t & <- & _).
  destruct (H t A C O) as [Q P]. apply horizon_lemma; [exact A|exact C|exact O| |].
  - rewrite <- Q. unfold quad, add, scale, tov. cbn. unfold Rdiv. ring.
  - rewrite <- P. unfold polar, add, scale, tov. cbn. unfold Rdiv. ring.
Qed.
Lemma bind_ok {A B} (x : pyres A) (f : A -> pyres B) y : bind x f = Ok y <-> exists a, x = Ok a /\ f a = Ok y.
Proof. destruct x as [v|ex]; cbn; split; [intro; eauto|intros (b & E & F); injection E as <-; exact F|discriminate|intros (b & E & _); discriminate]. Qed.

(** ** One result per time *)
Lemma mapM_map {A B C} (f : A -> B) (g : B -> pyres C) l : mapM g (map f l) = mapM (fun x => g (f x)) l.
Proof. induction l as [|x l IH]; cbn; [reflexivity|]. now rewrite IH. Qed.
Lemma mapM_ext_in {A B} (f g : A -> pyres B) l : (forall x, In x l -> f x = g x) -> mapM f l = mapM g l.
Proof.
  induction l as [|x l IH]; intro H; [reflexivity|]. cbn. rewrite (H x (or_introl eq_refl)), IH by (intros; apply H; now right). reflexivity.
Qed.
Lemma mapM_const {A B} (f : A -> B) l : mapM (fun x => Ok (f x)) l = Ok (map f l).
Proof. induction l as [|x l IH]; cbn; [reflexivity|]. now rewrite IH. Qed.
Lemma mapM_seq {A B} (f : A -> pyres B) (g : nat -> pyres B) l : (forall i x, nth_error l i = Some x -> g i = f x) -> mapM g (seq 0 (length l)) = mapM f l.
Proof.
  revert g. induction l as [|x l IH]; intros g H; [reflexivity|]. cbn [length seq mapM]. rewrite (H O x eq_refl), <- seq_shift, mapM_map.
  now rewrite (IH (fun i => g (S i))) by (intros i y E; now apply (H (S i))).
Qed.
Section Times.
Variables (surfpt : v3 -> v3 -> R -> R -> R -> option v3) (limb_points : v3 -> R -> R -> R -> v3 -> v3 * v3) (edlimb : R -> R -> R -> v3 -> v3 * v3 * v3)
  (recgeo : v3 -> R -> R -> R * R * R) (split : shape -> pyres shape) (ne ns : nat).
Notation footprint := (compute_footprint surfpt limb_points recgeo split ne ns).
Notation rpos := (ray_position surfpt limb_points recgeo).
Lemma footprint_one s C A roll pitch rect n e :
  footprint (TOne s) C A roll pitch rect n e =
  bind (finish split e (map (fun angle => lonlat (rpos C A roll pitch rect angle e s))
    (footprint_angles rect A C (match n with Some n => n | None => if rect then ns else ne end)))) (fun sh => Ok (One sh)).
Proof.
  unfold compute_footprint. cbn [size]. cbn [Nat.ltb Nat.leb]. rewrite mapM_map. cbn [compute_projected_ray_position as_scalar].
  rewrite mapM_const. cbn [bind]. rewrite map_map. reflexivity.
Qed.
Lemma footprint_many l C A roll pitch rect n e : (2 <= length l)%nat ->
  footprint (TMany l) C A roll pitch rect n e =
  bind (mapM (fun s => finish split e (map (fun angle => lonlat (rpos C A roll pitch rect angle e s))
    (footprint_angles rect A C (match n with Some n => n | None => if rect then ns else ne end)))) l) (fun shs => Ok (Many shs)).
Proof.
  intro L. unfold compute_footprint. cbn [size]. replace (1 <? length l)%nat with true by (symmetry; apply Nat.ltb_lt; lia).
  f_equal. apply mapM_seq. intros i s E. rewrite mapM_map. cbn [compute_projected_ray_position at_index].
  rewrite (mapM_ext_in _ (fun angle => Ok (rpos C A roll pitch rect angle e s))).
  - rewrite mapM_const. cbn [bind]. now rewrite map_map.
  - intros angle _. rewrite nth_error_map, E. reflexivity.
Qed.
Lemma footprint_single s C A roll pitch rect n e : footprint (TMany [s]) C A roll pitch rect n e = footprint (TOne s) C A roll pitch rect n e.
Proof.
  rewrite footprint_one. unfold compute_footprint. cbn [size length]. cbn [Nat.ltb Nat.leb]. rewrite mapM_map.
  cbn [compute_projected_ray_position as_scalar map]. rewrite mapM_const. cbn [bind]. now rewrite map_map.
Qed.
Lemma footprint_times l C A roll pitch rect n e : (2 <= length l)%nat ->
  (forall shs, footprint (TMany l) C A roll pitch rect n e = Ok (Many shs) <->
     Forall2 (fun s sh => footprint (TOne s) C A roll pitch rect n e = Ok (One sh)) l shs)
  /\ (forall x, footprint (TMany l) C A roll pitch rect n e = Ok x -> exists shs, x = Many shs).
Proof.
  intro L. rewrite footprint_many by exact L. split.
  - intro shs. rewrite bind_ok. split.
    + intros (shs' & E & F). injection F as ->. apply mapM_ok in E. revert E. apply Forall2_mono. intros s sh E. rewrite footprint_one, E. reflexivity.
    + intro F. exists shs. split; [|reflexivity]. apply mapM_ok. revert F. apply Forall2_mono. intros s sh E. rewrite footprint_one in E.
      apply bind_ok in E. destruct E as (a & E & F). injection F as ->. exact E.
  - intros x H. apply bind_ok in H. destruct H as (shs & _ & F). injection F as <-. eauto.
Qed.
Lemma limb_times l n e :
  (forall shs, compute_limb edlimb recgeo split (TMany l) n e = Ok (Many shs) <->
     Forall2 (fun s sh => compute_limb edlimb recgeo split (TOne s) n e = Ok (One sh)) l shs)
  /\ (forall x, compute_limb edlimb recgeo split (TMany l) n e = Ok x -> exists shs, x = Many shs).
Proof.
  unfold compute_limb. split.
  - intro shs. rewrite bind_ok. split.
    + intros (shs' & E & F). injection F as ->. apply mapM_ok in E. revert E. apply Forall2_mono. intros s sh E. now rewrite E.
    + intro F. exists shs. split; [|reflexivity]. apply mapM_ok. revert F. apply Forall2_mono. intros s sh E.
      apply bind_ok in E. destruct E as (a & E & F). injection F as ->. exact E.
  - intros x H. apply bind_ok in H. destruct H as (shs & _ & F). injection F as <-. eauto.
Qed.
(** Pixels. *)
Definition pixel_at (p : pointed) (e : R) (s : sample) (ij : nat * nat) : geo :=
  let (cone, clock) := cone_clock p (fst ij) (snd ij) in rpos cone cone (pi_roll p) (pi_pitch p) false clock e s.
Lemma pixels_one p s e : pixel_array surfpt limb_points recgeo p (TOne s) e = Ok (One (map (pixel_at p e s) (pixel_indices p))).
Proof.
  unfold pixel_array. cbn [size]. cbn [Nat.ltb Nat.leb]. rewrite mapM_map. rewrite (mapM_ext_in _ (fun ij => Ok (pixel_at p e s ij))).
  - now rewrite mapM_const.
  - intros ij _. unfold pixel_position, pixel_at. destruct (cone_clock p (fst ij) (snd ij)). reflexivity.
Qed.
Lemma pixels_single p s e : pixel_array surfpt limb_points recgeo p (TMany [s]) e = pixel_array surfpt limb_points recgeo p (TOne s) e.
Proof.
  rewrite pixels_one. unfold pixel_array. cbn [size length]. cbn [Nat.ltb Nat.leb]. rewrite mapM_map. rewrite (mapM_ext_in _ (fun ij => Ok (pixel_at p e s ij))).
  - now rewrite mapM_const.
  - intros ij _. unfold pixel_position, pixel_at. destruct (cone_clock p (fst ij) (snd ij)). reflexivity.
Qed.
Lemma pixels_many p l e : (2 <= length l)%nat ->
  pixel_array surfpt limb_points recgeo p (TMany l) e = Ok (Many (map (fun s => map (pixel_at p e s) (pixel_indices p)) l)).
Proof.
  intro L. unfold pixel_array. cbn [size]. replace (1 <? length l)%nat with true by (symmetry; apply Nat.ltb_lt; lia).
  rewrite (mapM_seq (fun s => Ok (map (pixel_at p e s) (pixel_indices p)))); [now rewrite mapM_const|].
  intros i s E. rewrite mapM_map, (mapM_ext_in _ (fun ij => Ok (pixel_at p e s ij))); [now rewrite mapM_const|].
  intros ij _. unfold pixel_position, pixel_at. destruct (cone_clock p (fst ij) (snd ij)). cbn. now rewrite nth_error_map, E.
Qed.
(** Pixel [i, j] of the array is the projected pixel [i, j]. *)
Lemma pixels_lemma2 p s e : exists gs, pixel_array surfpt limb_points recgeo p (TOne s) e = Ok (One gs)
  /\ length gs = (pi_cross_pixels p * pi_along_pixels p)%nat
  /\ (forall i j, (i < pi_cross_pixels p)%nat -> (j < pi_along_pixels p)%nat ->
       exists g, nth_error gs (i * pi_along_pixels p + j) = Some g /\ pixel_position surfpt limb_points recgeo p (TOne s) e (i, j) = One g).
Proof.
  exists (map (pixel_at p e s) (pixel_indices p)). split; [apply pixels_one|]. destruct (indices_lemma p) as [L N]. split; [now rewrite map_length|].
  intros i j I J. exists (pixel_at p e s (i, j)). split; [now rewrite nth_error_map, (N i j I J)|].
  unfold pixel_position, pixel_at. cbn [fst snd]. destruct (cone_clock p i j). reflexivity.
Qed.
Lemma pixels_times p l e : (2 <= length l)%nat -> exists gss, pixel_array surfpt limb_points recgeo p (TMany l) e = Ok (Many gss)
  /\ Forall2 (fun s gs => pixel_array surfpt limb_points recgeo p (TOne s) e = Ok (One gs)) l gss.
Proof.
  intro L. rewrite pixels_many by exact L. eexists. split; [reflexivity|]. apply Forall2_map_r. intros s _. apply pixels_one.
Qed.

(** ** Elevation *)
Lemma project_at e t : at_elevation e (project_polygon_to_elevation t e).
Proof.
  assert (K : forall q r v, (r = p_ext (project_poly e q) \/ In r (p_ints (project_poly e q))) -> In v r -> cz v = Some e).
  { intros q r v [->|R0] V; cbn in *.
    - apply in_map_iff in V. destruct V as (c & <- & _). reflexivity.
    - apply in_map_iff in R0. destruct R0 as (i & <- & _). apply in_map_iff in V. destruct V as (c & <- & _). reflexivity. }
  intros q Q r Hr v V. destruct t as [p|l]; cbn in Q.
  - destruct Q as [<-|[]]. exact (K p r v Hr V).
  - apply in_map_iff in Q. destruct Q as (p & <- & _). exact (K p r v Hr V).
Qed.
Lemma finish_ok e l sh : finish split e l = Ok sh <-> exists p t, polygon l = Ok p /\ split (SPoly p) = Ok t /\ sh = project_polygon_to_elevation t e.
Proof.
  unfold finish. rewrite bind_ok. split.
  - intros (p & P & H). apply bind_ok in H. destruct H as (t & T & E). injection E as <-. eauto.
  - intros (p & t & P & T & ->). exists p. split; [exact P|]. apply bind_ok. exists t. split; [exact T|reflexivity].
Qed.
Lemma limb_lemma s n e sh : limb_ellipse edlimb -> - EARTH_POLAR_RADIUS < e ->
  1 < quad (EARTH_EQUATORIAL_RADIUS + e) (EARTH_POLAR_RADIUS + e) (tov (s_pos s)) ->
  compute_limb edlimb recgeo split (TOne s) n e = Ok (One sh) ->
  exists ring p t, length ring = n
    /\ (forall v, In v ring -> on_horizon (EARTH_EQUATORIAL_RADIUS + e) (EARTH_POLAR_RADIUS + e) (tov (s_pos s)) (tov v))
    /\ polygon (map (fun v => (g_lon (geographic recgeo v), g_lat (geographic recgeo v))) ring) = Ok p
    /\ split (SPoly p) = Ok t /\ sh = project_polygon_to_elevation t e /\ at_elevation e sh.
Proof.
  intros H E O K. cbn in K. apply bind_ok in K. destruct K as (sh' & K & F). injection F as ->. unfold limb_polygon in K.
  apply finish_ok in K. destruct K as (p & t & P & T & ->). exists (limb_ring edlimb n e (s_pos s)), p, t. split.
  { unfold limb_ring. destruct (edlimb _ _ _ _) as [[? ?] ?]. unfold linspace_closed. now rewrite !map_length, seq_length. }
  split; [intros v V; eapply limb_ring_lemma; eassumption|]. repeat split; try assumption. apply project_at.
Qed.
End Times.
