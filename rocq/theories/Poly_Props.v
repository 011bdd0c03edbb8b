(** Properties of polygons on the globe: C81-C87, C111-C114, C127-C129, C165. *)
From Coq Require Import Reals ZArith List Bool Lra Lia Sorting.Permutation Sorting.Sorted.
From Verif Require Import Base RBase RFacts Poly_Model Poly_Spec Poly_Proofs Poly_Proofs2 Poly_Proofs3 Poly_Proofs4.
Import ListNotations.
Open Scope R_scope.

(** *** C81 *)
Theorem c81_projection : forall s e,
  same_parts (same_rings (fun c d => cx d = cx c /\ cy d = cy c /\ cz d = Some e)) s (project_polygon_to_elevation s e).
Proof. exact project_lemma. Qed.
Print Assumptions c81_projection.
Theorem c81_last_wins : forall s e1 e2, project_polygon_to_elevation (project_polygon_to_elevation s e2) e1 = project_polygon_to_elevation s e1.
Proof. exact project_again. Qed.
Print Assumptions c81_last_wins.
Example c81_witness : project_polygon_to_elevation (SMulti [mk_poly [xy 1 2] [[xy 3 4]]]) 5 = SMulti [mk_poly [mk_coord 1 2 (Some 5)] [[mk_coord 3 4 (Some 5)]]].
Proof. reflexivity. Qed.

(** *** C82 *)
Theorem c82_inside : forall iv p, lon_within (-180) 180 p -> wrap_antimeridian iv (SPoly p) = Ok (SPoly p).
Proof. exact wrap_antimeridian_inside. Qed.
Print Assumptions c82_inside.
Theorem c82_outside : forall iv p, move_invariant iv -> iv (SPoly p) = true ->
  lon_within (-540) (-180) p \/ lon_within 180 540 p ->
  exists q, wrap_antimeridian iv (SPoly p) = Ok (SPoly q) /\ same_rings same_place p q /\ lon_within (-180) 180 q.
Proof. exact wrap_antimeridian_outside. Qed.
Print Assumptions c82_outside.
(** Hence a polygon that crosses the antimeridian (and does not surround a pole) comes back in bounds. *)
Theorem c82_split_range : forall iv sp so ss p, splits_sides sp -> move_invariant iv -> lon_within (-180) 180 p -> so (map cx (p_ext p)) = false ->
  (forall q d, In q (polygons_of (sp (PShape (SPoly (unwrap_poly ss p))) d)) -> iv (SPoly q) = true) ->
  (forall k, In k (shifts (map cx (p_ext p))) -> k = 0%Z \/ k = 1%Z) \/ (forall k, In k (shifts (map cx (p_ext p))) -> k = 0%Z \/ k = (-1)%Z) ->
  exists t, split_antimeridian iv sp so ss (SPoly p) = Ok t /\ forall q, In q (geoms t) -> lon_within (-180) 180 q.
Proof. exact split_range. Qed.
Print Assumptions c82_split_range.
Example c82_witness : move_invariant ex_valid /\ ex_valid (SPoly (mk_poly (box 190 200 0 10) [])) = true
  /\ lon_within 180 540 (mk_poly (box 190 200 0 10) []).
Proof.
  split; [exact ex_valid_moves|]. split; [reflexivity|]. intros c C. apply box_in in C. destruct C as [[-> | ->] _]; lra.
Qed.
Example c82_split_witness : let p := mk_poly (box 170 (-170) 0 10) [] in let ss := fun l : list (R * R) => l in
  splits_sides ex_split /\ move_invariant ex_valid /\ lon_within (-180) 180 p /\ no_crossing (map cx (p_ext p)) = false
  /\ (forall q d, In q (polygons_of (ex_split (PShape (SPoly (unwrap_poly ss p))) d)) -> ex_valid (SPoly q) = true)
  /\ (forall k, In k (shifts (map cx (p_ext p))) -> k = 0%Z \/ k = (-1)%Z).
Proof.
  cbv zeta. split; [exact ex_split_sides|]. split; [exact ex_valid_moves|].
  split; [intros c C; apply box_in in C; destruct C as [[-> | ->] _]; lra|]. split; [exact ex_crossing|]. split.
  - intros q d Q. unfold polygons_of, ex_split in Q. rewrite flat_map_app in Q. apply in_app_or in Q.
    destruct Q as [Q|Q]; [destruct (has_west _ _)|destruct (has_east _ _)]; cbn in Q; destruct Q as [<-|[]] || destruct Q; reflexivity.
  - cbn [p_ext]. rewrite ex_shifts. intros k K. cbn in K. lia.
Qed.

(** *** C83 *)
(** A polygon that nowhere exceeds the pole is unchanged.  Otherwise there is a polygon [w] at the same
    places with latitudes (and longitudes) in bounds, and it is returned unless shapely calls it invalid. *)
Theorem c83_north_inside : forall iv p, (forall c, In c (p_ext p) -> cy c <= 90) -> wrap_north iv (SPoly p) = Ok (SPoly p).
Proof. exact wrap_north_inside. Qed.
Print Assumptions c83_north_inside.
Theorem c83_north : forall p, (exists c, In c (p_ext p) /\ 90 < cy c) -> exists w,
  same_rings same_place p w /\ (lat_within (-90) 270 p -> lat_within (-90) 90 w) /\ (one_side p -> lon_within (-180) 180 w)
  /\ forall iv, wrap_north iv (SPoly p) = Ok (SPoly (if iv (SPoly w) then w else p)).
Proof. exact wrap_north_lemma. Qed.
Print Assumptions c83_north.
Theorem c83_south_inside : forall iv p, (forall c, In c (p_ext p) -> -90 <= cy c) -> wrap_south iv (SPoly p) = Ok (SPoly p).
Proof. exact wrap_south_inside. Qed.
Print Assumptions c83_south_inside.
(** In the south only without holes: with a hole the call fails (c84_south_hole_refuted). *)
Theorem c83_south_partial : forall p, p_ints p = [] -> (exists c, In c (p_ext p) /\ cy c < -90) -> exists w,
  same_rings same_place p w /\ (lat_within (-270) 90 p -> lat_within (-90) 90 w) /\ (one_side p -> lon_within (-180) 180 w)
  /\ forall iv, wrap_south iv (SPoly p) = Ok (SPoly (if iv (SPoly w) then w else p)).
Proof. exact wrap_south_lemma. Qed.
Print Assumptions c83_south_partial.
Theorem c83_south_refuted : exists p, lat_within (-270) 90 p /\ one_side p /\ (exists c, In c (p_ext p) /\ cy c < -90)
  /\ forall iv w, wrap_south iv (SPoly p) <> Ok w.
Proof.
  exists (mk_poly (box 10 20 (-99) (-91)) [box 13 17 (-97) (-93)]). split; [intros c C; apply box_in in C; destruct C as [_ [-> | ->]]; lra|].
  split; [right; intros c C; apply box_in in C; destruct C as [[-> | ->] _]; lra|].
  assert (B : exists c, In c (p_ext (mk_poly (box 10 20 (-99) (-91)) [box 13 17 (-97) (-93)])) /\ cy c < -90) by (exists (xy 10 (-99)); split; [now left|cbn; lra]).
  split; [exact B|]. intros iv w. rewrite (wrap_south_hole iv _ (box 13 17 (-97) (-93))); [discriminate|now left|discriminate|exact B].
Qed.
Print Assumptions c83_south_refuted.
Example c83_witness : (exists c, In c (box 10 20 91 99) /\ 90 < cy c) /\ lat_within (-90) 270 (mk_poly (box 10 20 91 99) [])
  /\ one_side (mk_poly (box 10 20 91 99) []) /\ exists c, In c (box 10 20 (-99) (-91)) /\ cy c < -90.
Proof.
  split; [exists (xy 10 91); split; [now left|cbn; lra]|]. split; [intros c C; apply box_in in C; destruct C as [_ [-> | ->]]; lra|].
  split; [right; intros c C; apply box_in in C; destruct C as [[-> | ->] _]; lra|]. exists (xy 10 (-99)). split; [now left|cbn; lra].
Qed.

(** *** C84 *)
(** A polygon with a hole that reaches beyond the south pole cannot be wrapped, *)
Theorem c84_south_hole_refuted : exists p, lat_within (-180) 90 p /\ one_side p /\ forall iv, wrap_south iv (SPoly p) = Raise ValueError.
Proof.
  exists (mk_poly (box 10 20 (-99) (-91)) [box 13 17 (-97) (-93)]). split; [intros c C; apply box_in in C; destruct C as [_ [-> | ->]]; lra|].
  split; [right; intros c C; apply box_in in C; destruct C as [[-> | ->] _]; lra|]. intro iv.
  apply (wrap_south_hole iv _ (box 13 17 (-97) (-93))); [now left|discriminate|]. exists (xy 10 (-99)). split; [now left|cbn; lra].
Qed.
Print Assumptions c84_south_hole_refuted.
(** also through split_polygon, for any splitter that leaves a polygon alone that the line does not meet; *)
Theorem c84_split_refuted : exists p, lat_within (-180) 90 p /\ one_side p /\ forall iv mv cr pe sp so ss,
  (forall d, cr (PShape (SPoly p)) d = false) -> (forall d, sp (PShape (SPoly p)) d = [PShape (SPoly p)]) ->
  split_polygon iv mv cr pe sp so ss (SPoly p) = Raise ValueError.
Proof.
  exists (mk_poly (box 10 20 (-99) (-91)) [box 13 17 (-97) (-93)]). split; [intros c C; apply box_in in C; destruct C as [_ [-> | ->]]; lra|].
  split; [right; intros c C; apply box_in in C; destruct C as [[-> | ->] _]; lra|]. intros iv mv cr pe sp so ss CR SP.
  assert (B : exists c, In c (p_ext (mk_poly (box 10 20 (-99) (-91)) [box 13 17 (-97) (-93)])) /\ cy c < -90) by (exists (xy 10 (-99)); split; [now left|cbn; lra]).
  rewrite split_south_whole; [|apply box_steps; rewrite Rabs_pos_eq; lra|exact B|exact CR|exact SP].
  rewrite (wrap_south_hole iv _ (box 13 17 (-97) (-93))); [reflexivity|now left|discriminate|exact B].
Qed.
Print Assumptions c84_split_refuted.
(** and a polygon that straddles the antimeridian has no result at all. *)
Theorem c84_straddle_refuted : exists p, lon_within (-180) 190 p /\ forall iv, wrap_antimeridian iv (SPoly p) = Raise UnboundLocalError.
Proof.
  exists (mk_poly (box 170 190 0 10) []). split; [intros c C; apply box_in in C; destruct C as [[-> | ->] _]; lra|]. intro iv.
  apply (wrap_antimeridian_straddles iv _ (xy 170 0) (xy 170 0)); [now left|now left| |cbn; lra|cbn; lra].
  exists (xy 190 0). split; [right; now left|right; cbn; lra].
Qed.
Print Assumptions c84_straddle_refuted.
(** What holds: these are the only failures. *)
Theorem c84_antimeridian_partial : forall iv p, (exists s, wrap_antimeridian iv (SPoly p) = Ok s)
  <-> lon_within (-180) 180 p \/ (forall c, In c (p_ext p) -> cx c <= -180) \/ (forall c, In c (p_ext p) -> 180 <= cx c).
Proof. exact wrap_antimeridian_total. Qed.
Print Assumptions c84_antimeridian_partial.
Example c84_witness : lon_within (-180) 180 (mk_poly (box 170 180 0 10) []) /\ (forall c, In c (p_ext (mk_poly (box 180 190 0 10) [])) -> 180 <= cx c).
Proof. split; intros c C; apply box_in in C; destruct C as [[-> | ->] _]; lra. Qed.
Theorem c84_north_partial : forall iv s, exists t, wrap_north iv s = Ok t.
Proof. exact wrap_north_total. Qed.
Print Assumptions c84_north_partial.

(** *** C85 *)
Theorem c85_unwrapping : forall lon,
  length (unwrap lon) = length lon
  /\ (forall i x y, nth_error lon i = Some x -> nth_error (unwrap lon) i = Some y -> exists k : Z, y = x + 360 * IZR k)
  /\ (forall x r, lon = x :: r -> exists r', unwrap lon = x :: r')
  /\ (forall a b, consecutive (unwrap lon) a b -> Rabs (b - a) <= 180).
Proof. exact unwrap_lemma. Qed.
Print Assumptions c85_unwrapping.
Theorem c85_no_step_no_change : forall lon, (forall a b, consecutive lon a b -> Rabs (b - a) < 180) -> unwrap lon = lon.
Proof. exact unwrap_identity. Qed.
Print Assumptions c85_no_step_no_change.
Example c85_witness : unwrap (map cx (box 170 (-170) 0 10)) = [170; 190; 190; 170; 170].
Proof. unfold unwrap. rewrite ex_shifts. cbn. repeat (f_equal; try lra). Qed.

(** *** C86 *)
Theorem c86_ordinary : forall iv mv cr pe sp so ss s, iv s = true -> (forall p, In p (geoms s) -> ordinary p) ->
  split_polygon iv mv cr pe sp so ss s = Ok s.
Proof. exact split_ordinary. Qed.
Print Assumptions c86_ordinary.
Example c86_witness : let s := SMulti [mk_poly (box 10 20 0 10) []; mk_poly (box (-80) 80 (-90) 90) [box 1 2 3 4]] in
  ex_valid s = true /\ forall p, In p (geoms s) -> ordinary p.
Proof.
  split; [reflexivity|]. intros p [<-|[<-|[]]]; (split; [intros c C; apply box_in in C; destruct C as [_ [-> | ->]]; lra|apply box_steps; rewrite Rabs_pos_eq; lra]).
Qed.

(** *** C87 *)
(** A frame that is passed in is overwritten: here its only polygon, beyond the pole, is replaced. *)
Theorem c87_frame_refuted : exists p, (forall iv mv cr pe sp so ss,
  (forall s, iv s = true) -> (forall d, cr (PShape (SPoly p)) d = false) -> (forall d, sp (PShape (SPoly p)) d = [PShape (SPoly p)]) ->
  exists q, normalize_geometry iv mv cr pe sp so ss (AFrame [SPoly p]) = Ok (RFrame [SPoly q], AFrame [SPoly q]) /\ q <> p).
Proof.
  exists (mk_poly (box 10 20 91 99) []). intros iv mv cr pe sp so ss V CR SP.
  assert (B : exists c, In c (p_ext (mk_poly (box 10 20 91 99) [])) /\ 90 < cy c) by (exists (xy 10 91); split; [now left|cbn; lra]).
  destruct (wrap_north_lemma _ B) as (w & _ & L & _ & E). exists w. split.
  - unfold normalize_geometry. cbn [mapM]. rewrite split_north_whole; [|apply box_steps; rewrite Rabs_pos_eq; lra| |exact B|exact CR|exact SP].
    + rewrite E, !V. cbn [bind]. rewrite V. reflexivity.
    + intros c C. apply box_in in C. destruct C as [_ [-> | ->]]; lra.
  - intros ->. assert (X : lat_within (-90) 90 (mk_poly (box 10 20 91 99) [])).
    { apply L. intros c C. apply box_in in C. destruct C as [_ [-> | ->]]; lra. }
    specialize (X (xy 10 91) (or_introl eq_refl)). cbn in X. lra.
Qed.
Print Assumptions c87_frame_refuted.
(** Shapes and series are left alone, every geometry is split, an invalid shape is refused, anything else
    is handed back. *)
Theorem c87_others_partial : forall iv mv cr pe sp so ss a,
  match a with
  | AShape s => (iv s = true -> normalize_geometry iv mv cr pe sp so ss a = bind (split_polygon iv mv cr pe sp so ss s) (fun t => Ok (RFrame [t], a)))
      /\ (iv s = false -> normalize_geometry iv mv cr pe sp so ss a = Raise ValueError)
  | ASeries l => forall r a', normalize_geometry iv mv cr pe sp so ss a = Ok (r, a') ->
      a' = a /\ exists ts, r = RFrame ts /\ Forall2 (fun s t => split_polygon iv mv cr pe sp so ss s = Ok t) l ts
  | AFrame l => forall r a', normalize_geometry iv mv cr pe sp so ss a = Ok (r, a') ->
      exists ts, r = RFrame ts /\ a' = AFrame ts /\ Forall2 (fun s t => split_polygon iv mv cr pe sp so ss s = Ok t) l ts
  | AOther => normalize_geometry iv mv cr pe sp so ss a = Ok (ROther, a)
  end.
Proof. exact normalize_lemma. Qed.
Print Assumptions c87_others_partial.
(** A series with one valid, ordinary polygon is handed back unchanged in a frame. *)
Example c87_witness : forall mv cr pe sp so ss, let s := SPoly (mk_poly (box 10 20 0 10) []) in
  normalize_geometry (fun _ => true) mv cr pe sp so ss (ASeries [s]) = Ok (RFrame [s], ASeries [s]).
Proof.
  intros mv cr pe sp so ss s.
  assert (E : split_polygon (fun _ => true) mv cr pe sp so ss s = Ok s).
  { apply split_ordinary; [reflexivity|]. intros p [<-|[]]. split; [intros c C; apply box_in in C; destruct C as [_ [-> | ->]]; lra|apply box_steps; rewrite Rabs_pos_eq; lra]. }
  unfold normalize_geometry. cbn [mapM]. rewrite E. reflexivity.
Qed.

(** *** C111 *)
Theorem c111_in_bounds_refuted : exists p, (exists c, In c (p_ext p) /\ 180 < cx c) /\ forall iv mv cr pe sp so ss,
  iv (SPoly p) = true -> split_polygon iv mv cr pe sp so ss (SPoly p) = Ok (SPoly p).
Proof.
  exists (mk_poly (box 170 190 0 10) []). split; [exists (xy 190 0); split; [right; now left|cbn; lra]|]. intros iv mv cr pe sp so ss V.
  apply split_ordinary; [exact V|]. intros p [<-|[]]. split; [intros c C; apply box_in in C; destruct C as [_ [-> | ->]]; lra|apply box_steps; rewrite Rabs_pos_eq; lra].
Qed.
Print Assumptions c111_in_bounds_refuted.
(** Longitudes that are in bounds stay in bounds when nothing crosses the antimeridian or a pole. *)
Theorem c111_in_bounds_partial : forall iv mv cr pe sp so ss s t, iv s = true -> (forall p, In p (geoms s) -> ordinary p /\ lon_within (-180) 180 p) ->
  split_polygon iv mv cr pe sp so ss s = Ok t -> forall q, In q (geoms t) -> lon_within (-180) 180 q /\ lat_within (-90) 90 q.
Proof. exact in_bounds_lemma. Qed.
Print Assumptions c111_in_bounds_partial.
(** Geographic coordinates stay geographic whatever the polygon crosses: the antimeridian in one direction, or all the way
    around a pole. *)
Theorem c111_geographic_partial : forall iv mv cr pe sp so ss,
  splits_box sp -> move_invariant iv -> (forall g d q, In q (polygons_of (sp g d)) -> iv (SPoly q) = true) -> repairs_box mv ->
  forall s, (forall p, In p (geoms s) -> in_box (-180) 180 (-90) 90 p /\ (so (map cx (p_ext p)) = true \/ one_way p)) ->
  exists t, split_polygon iv mv cr pe sp so ss s = Ok t /\ forall q, In q (geoms t) -> in_box (-180) 180 (-90) 90 q.
Proof. exact split_globe. Qed.
Print Assumptions c111_geographic_partial.
Example c111_geographic_witness : let p := mk_poly (box 170 (-170) 0 10) [] in
  splits_box ex_cut /\ move_invariant (fun _ => true) /\ repairs_box (fun s => inr s)
  /\ in_box (-180) 180 (-90) 90 p /\ no_crossing (map cx (p_ext p)) = false /\ one_way p.
Proof.
  cbv zeta. split; [exact ex_cut_box|]. split; [intros k p; reflexivity|]. split; [intros s lo hi la lb H; exact H|]. exact ex_globe.
Qed.
Example c111_witness : forall p, In p (geoms (SMulti [mk_poly (box 10 20 0 10) []; mk_poly (box (-60) 80 (-5) 85) []])) ->
  ordinary p /\ lon_within (-180) 180 p.
Proof.
  intros p [<-|[<-|[]]]; (split; [split; [intros c C; apply box_in in C; destruct C as [_ [-> | ->]]; lra|apply box_steps; rewrite Rabs_pos_eq; lra]
    |intros c C; apply box_in in C; destruct C as [[-> | ->] _]; lra]).
Qed.

(** *** C112 *)
Theorem c112_antimeridian_latitude_refuted : exists p west east,
  In west (p_ext p) /\ In east (p_ext p) /\ (forall c, In c (p_ext p) -> cx west <= cx c <= cx east)
  /\ forall c, In c (p_ext (pole_polygon p)) -> cx c = 180 -> cy c <> latitude_at 180 east west.
Proof. exact pole_lat_wrong. Qed.
Print Assumptions c112_antimeridian_latitude_refuted.
(** What is used instead is the latitude of the westernmost vertex, right when both are equally far north. *)
Theorem c112_antimeridian_latitude_partial : forall west r, cx west < 0 -> pole_lat (west :: r) = cy west
  /\ forall east, cy east = cy west -> pole_lat (west :: r) = latitude_at 180 east west.
Proof. exact pole_lat_lemma2. Qed.
Print Assumptions c112_antimeridian_latitude_partial.
Example c112_witness : let west := xy (-120) 80 in let east := xy 120 80 in cx west < 0 /\ cy east = cy west
  /\ pole_lat [west; xy 0 80; east] = 80.
Proof. cbv zeta. split; [cbn; lra|]. split; [reflexivity|]. apply (c112_antimeridian_latitude_partial (xy (-120) 80) [xy 0 80; xy 120 80]). cbn; lra. Qed.

(** *** C113 *)
Theorem c113_polar_polygon : forall p, exists n lat l,
  (let m := fold_right Rplus 0 (map cy (removelast (p_ext p))) / INR (length (removelast (p_ext p))) in (0 < m -> n = 1) /\ (m <= 0 -> n = -1))
  /\ Permutation l (removelast (p_ext p)) /\ StronglySorted (fun a b => cx a <= cx b) l
  /\ p_ext (pole_polygon p) = [xy (-180) (90 * n); xy (-180) lat] ++ l ++ [xy 180 lat; xy 180 (90 * n); xy (-180) (90 * n)]
  /\ p_ints (pole_polygon p) = p_ints p.
Proof. exact pole_polygon_lemma. Qed.
Print Assumptions c113_polar_polygon.
(** It is returned in two parts, one on either side of the prime meridian. *)
Theorem c113_polar_halves : forall iv sp so ss, splits_box sp -> forall p, in_box (-180) 180 (-90) 90 p ->
  no_crossing (map cx (p_ext p)) = false -> so (map cx (p_ext p)) = true ->
  exists t, split_antimeridian iv sp so ss (SPoly p) = Ok t
    /\ forall q, In q (geoms t) -> in_box (-180) 0 (-90) 90 q \/ in_box 0 180 (-90) 90 q.
Proof. exact pole_parts. Qed.
Print Assumptions c113_polar_halves.
Example c113_witness : let p := mk_poly [xy (-120) 80; xy 0 80; xy 120 80; xy (-120) 80] [] in
  splits_box ex_cut /\ in_box (-180) 180 (-90) 90 p /\ no_crossing (map cx (p_ext p)) = false.
Proof.
  cbv zeta. split; [exact ex_cut_box|]. split; [split; intros c C; cbn in C; repeat (destruct C as [<-|C]; [cbn; lra|]); destruct C|].
  unfold no_crossing. cbn [map p_ext cx xy steps_small].
  replace (Rltb (Rabs (-120 - 120)) 180) with false; [now rewrite !andb_false_r|]. symmetry. apply Rltb_false. rewrite Rabs_left; lra.
Qed.

(** *** C114 *)
Theorem c114_collection : forall l, Permutation (geoms (convert_collection l)) (polygons_of l).
Proof. exact collection_lemma. Qed.
Print Assumptions c114_collection.
Example c114_witness : geoms (convert_collection [POther; PShape (SMulti [mk_poly [xy 1 2] []]); PShape (SPoly (mk_poly [] []))]) = [mk_poly [] []; mk_poly [xy 1 2] []].
Proof. reflexivity. Qed.

(** *** C127 *)
Theorem c127_part_by_part : forall iv mv cr pe sp so ss l t, (forall s, iv s = false -> mv s = inr s) ->
  split_polygon iv mv cr pe sp so ss (SMulti l) = Ok t ->
  exists ts, Forall2 (fun p u => split_polygon iv mv cr pe sp so ss (SPoly p) = Ok u) l ts /\ t = SMulti (flat_map geoms ts).
Proof. exact split_parts_lemma. Qed.
Print Assumptions c127_part_by_part.
Theorem c127_fails_with_a_part : forall iv mv cr pe sp so ss s, (exists t, split_polygon iv mv cr pe sp so ss s = Ok t) <->
  forall p, In p (geoms s) -> exists u, split_polygon iv mv cr pe sp so ss (SPoly p) = Ok u.
Proof. exact split_total_parts. Qed.
Print Assumptions c127_fails_with_a_part.
Example c127_witness : (forall s, (fun _ => true) s = false -> (fun s : shape => inr s) s = inr s :> list piece + shape)
  /\ exists t, split_polygon (fun _ => true) (fun s => inr s) (fun _ _ => true) (fun _ _ => false) side_split (fun _ => false) (fun l => l) (SMulti [ex_over; ex_over]) = Ok t.
Proof.
  split; [reflexivity|]. apply split_total_parts. destruct ex_over_split as (t & E & _). intros p [<-|[<-|[]]]; eauto.
Qed.

(** *** C128 *)
Theorem c128_coverage : forall iv mv cr pe sp so ss cov, moves_coverage cov -> splits_coverage cov sp -> equal_coverage cov pe ->
  forall s t, repairs_coverage cov mv -> split_polygon iv mv cr pe sp so ss s = Ok t ->
  exists us, Forall2 (fun p u => laid_out (so (map cx (p_ext p))) p u) (geoms s) us
    /\ forall X, places_of cov (geoms t) X <-> places_of cov us X.
Proof. exact coverage_lemma. Qed.
Print Assumptions c128_coverage.
Example c128_witness : moves_coverage vertex_cov /\ splits_coverage vertex_cov side_split /\ equal_coverage vertex_cov (fun _ _ => false)
  /\ repairs_coverage vertex_cov (fun s => inr s)
  /\ exists t, split_polygon (fun _ => true) (fun s => inr s) (fun _ _ => true) (fun _ _ => false) side_split (fun _ => false) (fun l => l) (SPoly ex_over) = Ok t
    /\ places_of vertex_cov (geoms t) (on_globe (xy 10 100)).
Proof.
  split; [exact vertex_moves|]. split; [exact side_splits|]. split; [intros g h K; discriminate|]. split; [intros s x y; reflexivity|]. exact ex_over_split.
Qed.

(** *** C129 *)
Theorem c129_holes : forall ss p w e a b, sorts_pairs ss -> w < e ->
  (forall c, In c (p_ext p) -> cx c <= w \/ e <= cx c) -> (exists c, In c (p_ext p) /\ cx c = w) -> (exists c, In c (p_ext p) /\ cx c = e) ->
  turned_ring w e a b (p_ext p) (p_ext (unwrap_poly ss p)) -> Forall2 (turned_ring w e a b) (p_ints p) (p_ints (unwrap_poly ss p)).
Proof. exact holes_lemma. Qed.
Print Assumptions c129_holes.
Example c129_witness : exists ss, sorts_pairs ss /\ p_ints ex_ring = [box 175 (-175) 2 8] /\ p_ints (unwrap_poly ss ex_ring) = [box 175 185 2 8].
Proof. destruct insert_sorts as [ss S]. exists ss. split; [exact S|]. split; [reflexivity|now apply ex_ring_lemma]. Qed.

(** *** C165 *)
(** Over the north pole: every part comes back within bounds (or unchanged when shapely calls its copy within
    bounds invalid). *)
Theorem c165_north : forall iv cr pe sp, splits_box sp -> crosses_meridian cr -> (forall g, pe g g = true) ->
  forall l hi s, l <= -90 -> 90 <= hi < 180 -> (forall p, In p (geoms s) -> in_box (-180) 180 l hi p) ->
  exists t, split_north iv cr pe sp s = Ok t /\ forall q, In q (geoms t) -> bounded_or_invalid iv l 90 q.
Proof. exact split_north_all. Qed.
Print Assumptions c165_north.
(** Over the south pole only without holes. *)
Theorem c165_south_partial : forall iv cr pe sp, splits_box sp -> crosses_meridian cr -> (forall g, pe g g = true) ->
  forall lo h s, -180 < lo <= -90 -> 90 <= h -> (forall p, In p (geoms s) -> p_ints p = [] /\ in_box (-180) 180 lo h p) ->
  exists t, split_south iv cr pe sp s = Ok t /\ forall q, In q (geoms t) -> bounded_or_invalid iv (-90) h q.
Proof. exact split_south_all. Qed.
Print Assumptions c165_south_partial.
(** With a hole there is no result, whatever shapely does with the pieces, as long as a polygon on one side of a line is
    left alone. *)
Theorem c165_south_refuted : exists p, in_box (-180) 180 (-170) 90 p /\ (exists c, In c (p_ext p) /\ cy c < -90)
  /\ forall iv cr pe sp, (forall d, cr (PShape (SPoly p)) d = false) -> (forall d, sp (PShape (SPoly p)) d = [PShape (SPoly p)]) ->
     split_south iv cr pe sp (SPoly p) = Raise ValueError.
Proof. exact split_south_hole_lemma. Qed.
Print Assumptions c165_south_refuted.
(** Functions that meet the contracts, and a polygon over the pole and across the prime meridian. *)
Example c165_witness : splits_box ex_cut /\ crosses_meridian ex_crosses /\ (forall g, ex_eqb g g = true)
  /\ in_box (-180) 180 (-90) 100 (mk_poly (box (-10) 10 80 100) [])
  /\ p_ints (mk_poly (box (-10) 10 (-100) (-80)) []) = [] /\ in_box (-180) 180 (-100) 90 (mk_poly (box (-10) 10 (-100) (-80)) []).
Proof.
  split; [exact ex_cut_box|]. split; [exact ex_crosses_meridian|]. split; [exact ex_eqb_refl|].
  split; [|split; [reflexivity|]]; split; intros c C; cbn in C; repeat (destruct C as [<-|C]; [cbn; lra|]); destruct C.
Qed.
