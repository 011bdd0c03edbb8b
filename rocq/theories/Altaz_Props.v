(** Properties of altitude and azimuth columns: C186. *)
From Coq Require Import String Reals ZArith List Bool Lra Lia Sorting.Permutation.
From Verif Require Import Base RBase Tle_Model Instr_Model Poly_Model Track_Model Track_Spec Track_Proofs3 Track_Proofs4 Altaz_Model Altaz_Spec Altaz_Proofs.
Import ListNotations.

(** *** C186 *)
(** Ground tracks: the columns are those of the row's own time and of the center of its footprint. *)
Theorem c186_ground : forall W sat_seen sun_seen sa times idx i elevation src f g, picks (sa_instruments sa) idx i ->
  exists rows, ground_track_altaz W sat_seen sun_seen sa times idx elevation None src f g = Ok rows
    /\ Forall2 (fun t a => ground_row_for W sa i elevation src t (a_row a)
         /\ column f (a_sat a) (sat_seen t t (w_footprint_center W i elevation (w_state W t)))
         /\ column g (a_sun a) (sun_seen t (w_footprint_center W i elevation (w_state W t)))) times rows.
Proof. exact ground_columns_lemma. Qed.
Print Assumptions c186_ground.
(** With a mask the rows are those without the columns, and each keeps the columns of its own time. *)
Theorem c186_ground_masked : forall W sat_seen sun_seen sa times idx i elevation k src f g, picks (sa_instruments sa) idx i -> clip_keeps (w_clip_order W) ->
  exists rows plain, ground_track_altaz W sat_seen sun_seen sa times idx elevation (Some k) src f g = Ok rows
    /\ collect_ground_track W sa times idx elevation (Some k) src = Ok plain
    /\ Permutation (map a_row rows) plain
    /\ forall a, In a rows -> exists t, In t times /\ g_time (a_row a) = w_reported W t
         /\ m_cut k (shown W src i elevation t) = Some (g_geom (a_row a))
         /\ column f (a_sat a) (sat_seen t t (w_footprint_center W i elevation (w_state W t)))
         /\ column g (a_sun a) (sun_seen t (w_footprint_center W i elevation (w_state W t))).
Proof. exact ground_masked_columns_lemma. Qed.
Print Assumptions c186_ground_masked.
(** Ground pixels: the columns never make the call fail, and hold for the reported time and the row's own pixel; the satellite
    position is that of a time reported as the same. *)
Theorem c186_pixels : forall W sat_seen sun_seen sa times idx i p elevation f g, picks (sa_instruments sa) idx i -> in_pointed i = Some p -> pi_rect p = true ->
  exists rows, ground_pixels_altaz W sat_seen sun_seen sa times idx elevation None f g = Ok rows
    /\ Forall2 (fun x a => pixel_row_for W sa i p elevation x (a_row a) /\ exists t, In t times /\ w_reported W t = w_reported W (fst x)
         /\ column f (a_sat a) (sat_seen t (w_reported W (fst x)) (p_geom (a_row a)))
         /\ column g (a_sun a) (sun_seen (w_reported W (fst x)) (p_geom (a_row a)))) (grid p times) rows.
Proof. exact pixel_columns_lemma. Qed.
Print Assumptions c186_pixels.
Theorem c186_pixels_masked : forall W sat_seen sun_seen sa times idx i p elevation k f g, picks (sa_instruments sa) idx i -> in_pointed i = Some p -> pi_rect p = true ->
  clip_keeps (w_clip_order W) ->
  exists rows plain, ground_pixels_altaz W sat_seen sun_seen sa times idx elevation (Some k) f g = Ok rows
    /\ collect_ground_pixels W sa times idx elevation (Some k) = Ok plain
    /\ Permutation (map a_row rows) plain
    /\ forall a, In a rows -> exists x t, In x (grid p times) /\ pixel_row_for W sa i p elevation x (a_row a) /\ In t times /\ w_reported W t = w_reported W (fst x)
         /\ column f (a_sat a) (sat_seen t (w_reported W (fst x)) (p_geom (a_row a)))
         /\ column g (a_sun a) (sun_seen (w_reported W (fst x)) (p_geom (a_row a))).
Proof. exact pixel_masked_columns_lemma. Qed.
Print Assumptions c186_pixels_masked.
(** For times that are reported as given (whole milliseconds), the columns are those of the row's own time. *)
Theorem c186_pixels_partial : forall W sat_seen sun_seen sa times idx i p elevation f g, picks (sa_instruments sa) idx i -> in_pointed i = Some p -> pi_rect p = true ->
  (forall t, In t times -> w_reported W t = t) ->
  exists rows, ground_pixels_altaz W sat_seen sun_seen sa times idx elevation None f g = Ok rows
    /\ Forall2 (fun x a => pixel_row_for W sa i p elevation x (a_row a)
         /\ column f (a_sat a) (sat_seen (fst x) (fst x) (p_geom (a_row a)))
         /\ column g (a_sun a) (sun_seen (fst x) (p_geom (a_row a)))) (grid p times) rows.
Proof. exact pixel_columns_exact. Qed.
Print Assumptions c186_pixels_partial.
(** With times reported to the millisecond, a row can show the satellite position of another sample. *)
Theorem c186_pixels_refuted : exists (W : world) sat_seen sun_seen sa times i p rows t u a, picks (sa_instruments sa) 0 i /\ in_pointed i = Some p /\ pi_rect p = true
  /\ (forall t, w_reported W t = to_ms t) /\ times = [t; u] /\ (t < u)%Z
  /\ ground_pixels_altaz W sat_seen sun_seen sa times 0 0 None true true = Ok rows /\ nth_error rows 1 = Some a
  /\ pixel_row_for W sa i p 0 (u, (0, 0)%nat) (a_row a)
  /\ forall v, a_sat a <> Some (sat_seen u v (p_geom (a_row a))).
Proof. exact wrong_sample. Qed.
Print Assumptions c186_pixels_refuted.
Example c186_witness : picks (sa_instruments ex_imaging) 0 ex_imager /\ in_pointed ex_imager = Some (mk_pointed 20 10 0 0 true 1 1 0 0)
  /\ forall t, In t [1000; 5000]%Z -> w_reported ex_rounded t = t.
Proof. split; [apply ex_imager_picks|]. split; [reflexivity|]. intros t [<-|[<-|[]]]; reflexivity. Qed.
