(** Proofs about altitude and azimuth columns. *)
From Coq Require Import String Reals ZArith List Bool Lra Lia Sorting.Permutation.
From Verif Require Import Base BaseFacts RBase RFacts Tle_Model Instr_Model Instr_Spec Geom_Model Poly_Model Poly_Spec Poly_Proofs Track_Model Track_Spec Track_Proofs Track_Proofs2 Track_Proofs3 Track_Proofs4 Altaz_Model Altaz_Spec.
Import ListNotations.

Section Proofs.
Variable W : world.
Variable sat_seen : Z -> Z -> pt -> R * R.
Variable sun_seen : Z -> pt -> R * R.
Definition center i elevation t := w_footprint_center W i elevation (w_state W t).
Definition arow_of sa i elevation src f g t : arow (grow (w_G W)) :=
  mk_arow (grow_of W sa i elevation src t) (if f : bool then Some (sat_seen t t (center i elevation t)) else None) (if g : bool then Some (sun_seen t (center i elevation t)) else None).
Lemma rows_altaz sa i elevation src f g ts : ts <> [] -> forall X (F : list (arow (grow (w_G W))) -> pyres X),
  (let track := orbit_track W ts in
   let target := map (fun x => w_footprint_center W i elevation (snd x)) track in
   bind (validity W i (w_footprint_center W i elevation) (map snd track)) (fun valid =>
          let rows := map (fun x => mk_grow (w_reported W (fst (fst x))) (sa_name sa) (in_name i) (snd x) (ground_geometry W src i elevation (fst x)))
                          (combine track valid) in
          let sat_col := map (fun x => if f : bool then Some (sat_seen (fst (fst x)) (fst (fst x)) (snd x)) else None) (combine track target) in
          let sun_col := map (fun x => if g : bool then Some (sun_seen (fst (fst x)) (snd x)) else None) (combine track target) in
          let rows := map (fun x => mk_arow (fst (fst x)) (snd (fst x)) (snd x)) (combine (combine rows sat_col) sun_col) in
          F rows)) = F (map (arow_of sa i elevation src f g) ts).
Proof.
  intros N X F. cbv zeta. unfold orbit_track. rewrite validity_map by (destruct ts; [congruence|discriminate]). cbn [bind]. f_equal. rewrite !map_map. cbn [snd].
  rewrite !combine_map_self, !map_map. cbn [fst snd]. rewrite !combine_map_self, !map_map. reflexivity.
Qed.
Lemma ground_altaz_none sa times idx i elevation src f g : picks (sa_instruments sa) idx i ->
  ground_track_altaz W sat_seen sun_seen sa times idx elevation None src f g = Ok (map (arow_of sa i elevation src f g) times).
Proof.
  intro P. unfold ground_track_altaz. destruct times as [|t0 times]; [reflexivity|]. cbn [length Nat.eqb]. rewrite (py_index_ok _ _ _ P). cbn [bind].
  exact (rows_altaz sa i elevation src f g (t0 :: times) ltac:(discriminate) _ (fun rows => Ok rows)).
Qed.
Lemma ground_altaz_masked sa times idx i elevation k src f g : picks (sa_instruments sa) idx i ->
  ground_track_altaz W sat_seen sun_seen sa times idx elevation (Some k) src f g =
  Ok (match (if Nat.ltb 1 (length times) then filter (kept W k i elevation) times else times) with [] => [] | ts => clip_arows W k (map (arow_of sa i elevation src f g) ts) end).
Proof.
  intro P. unfold ground_track_altaz. destruct times as [|t0 times]; [reflexivity|]. cbn [length Nat.eqb]. rewrite (py_index_ok _ _ _ P). cbn [bind].
  destruct (Nat.ltb 1 _).
  - rewrite cull_times. destruct (filter (kept W k i elevation) (t0 :: times)) as [|t1 ts] eqn:E; [reflexivity|].
    exact (rows_altaz sa i elevation src f g (t1 :: ts) ltac:(discriminate) _ (fun rows => Ok (clip_arows W k rows))).
  - exact (rows_altaz sa i elevation src f g (t0 :: times) ltac:(discriminate) _ (fun rows => Ok (clip_arows W k rows))).
Qed.
Lemma ground_columns_lemma : forall sa times idx i elevation src f g, picks (sa_instruments sa) idx i ->
  exists rows, ground_track_altaz W sat_seen sun_seen sa times idx elevation None src f g = Ok rows
    /\ Forall2 (fun t a => ground_row_for W sa i elevation src t (a_row a)
         /\ column f (a_sat a) (sat_seen t t (w_footprint_center W i elevation (w_state W t)))
         /\ column g (a_sun a) (sun_seen t (w_footprint_center W i elevation (w_state W t)))) times rows.
Proof.
  intros sa times idx i elevation src f g P. eexists. split; [apply ground_altaz_none; exact P|]. apply Forall2_map_l. intros t _. split; [apply grow_of_spec|]. split; reflexivity.
Qed.
Lemma some_map {A B C} (f : A -> option B) (h : A -> option C) (j : C -> B) l : (forall x, f x = option_map j (h x)) -> filter_some (map f l) = map j (filter_some (map h l)).
Proof.
  intro H. induction l as [|x l IH]; cbn; [reflexivity|]. rewrite H. destruct (h x); cbn; [|exact IH]. now rewrite IH.
Qed.
Lemma in_filter_some {A} (l : list (option A)) x : In x (filter_some l) <-> In (Some x) l.
Proof.
  induction l as [|[y|] l IH]; cbn; [reflexivity| |].
  - rewrite IH. split; (intros [E|E]; [left; congruence|now right]).
  - rewrite IH. split; [now right|intros [E|E]; [discriminate|exact E]].
Qed.
Lemma ground_masked_columns_lemma : forall sa times idx i elevation k src f g, picks (sa_instruments sa) idx i -> clip_keeps (w_clip_order W) ->
  exists rows plain, ground_track_altaz W sat_seen sun_seen sa times idx elevation (Some k) src f g = Ok rows
    /\ collect_ground_track W sa times idx elevation (Some k) src = Ok plain
    /\ Permutation (map a_row rows) plain
    /\ forall a, In a rows -> exists t, In t times /\ g_time (a_row a) = w_reported W t
         /\ m_cut k (shown W src i elevation t) = Some (g_geom (a_row a))
         /\ column f (a_sat a) (sat_seen t t (w_footprint_center W i elevation (w_state W t)))
         /\ column g (a_sun a) (sun_seen t (w_footprint_center W i elevation (w_state W t))).
Proof.
  intros sa times idx i elevation k src f g P CK. rewrite (ground_altaz_masked sa times idx i) by exact P. rewrite (ground_masked W sa times idx i) by exact P.
  set (ts := if Nat.ltb 1 (length times) then filter (kept W k i elevation) times else times).
  assert (I0 : incl ts times) by (unfold ts; destruct (Nat.ltb 1 _); [intros t T; apply filter_In in T; apply T|apply incl_refl]).
  eexists _, _. split; [reflexivity|]. split; [reflexivity|]. clearbody ts.
  assert (E : Permutation (map a_row (clip_arows W k (map (arow_of sa i elevation src f g) ts))) (clip_rows W k (track_rows W sa i elevation src ts))).
  { unfold clip_arows, clip_rows. etransitivity; [apply Permutation_map, CK|]. etransitivity; [|symmetry; apply CK]. apply Permutation_refl'. unfold track_rows. rewrite !map_map.
    symmetry. apply some_map. intro t. cbn [arow_of a_row]. destruct (m_cut k _); reflexivity. }
  split; [destruct ts; [constructor|exact E]|]. intros a I.
  assert (J : In a (clip_arows W k (map (arow_of sa i elevation src f g) ts))) by (destruct ts; [destruct I|exact I]). clear I. unfold clip_arows in J.
  apply (Permutation_in _ (CK _ _)) in J. apply in_filter_some in J. apply in_map_iff in J. destruct J as (b & B & J). apply in_map_iff in J. destruct J as (t & <- & T).
  exists t. split; [apply I0, T|]. cbn [arow_of a_row a_sat a_sun] in B. destruct (m_cut k _) as [c|] eqn:C; [|discriminate]. injection B as <-. cbn. split; [reflexivity|].
  split; [rewrite <- C; f_equal; unfold shown, grow_of, ground_geometry; destruct src; reflexivity|]. split; reflexivity.
Qed.

(** *** Pixels *)
Lemma index_first ts t : In t ts -> exists n t', list_index (w_reported W t) (map (w_reported W) ts) = Ok n /\ nth_error ts n = Some t' /\ In t' ts /\ w_reported W t' = w_reported W t.
Proof.
  induction ts as [|u ts IH]; intro I; [destruct I|]. cbn [map list_index]. destruct (Z.eqb_spec (w_reported W u) (w_reported W t)) as [E|E].
  - exists 0%nat, u. repeat split; [now left|exact E].
  - destruct I as [->|I]; [congruence|]. destruct (IH I) as (n & t' & A & B & C & D). rewrite A. exists (S n), t'. repeat split; [exact B|now right|exact D].
Qed.
(** The time whose state is used for the pixels of a time. *)
Definition used (ts : list Z) (t : Z) : Z :=
  match list_index (w_reported W t) (map (w_reported W) ts) with Ok n => nth n ts t | Raise _ => t end.
Lemma used_spec ts t : In t ts -> In (used ts t) ts /\ w_reported W (used ts t) = w_reported W t.
Proof.
  intro I. destruct (index_first ts t I) as (n & t' & A & B & C & D). unfold used. rewrite A. rewrite (nth_error_nth _ _ t B). auto.
Qed.
Definition aprow_of sa i p elevation f g ts x : arow prow :=
  let q := w_pixel_position W p elevation (w_state W (fst x)) (snd x) in
  mk_arow (prow_of W sa i p elevation x) (if f : bool then Some (sat_seen (used ts (fst x)) (w_reported W (fst x)) q) else None)
    (if g : bool then Some (sun_seen (w_reported W (fst x)) q) else None).
Lemma pixel_sat_ok sa i p elevation ts x : In (fst x) ts ->
  pixel_sat W sat_seen (orbit_track W ts) (prow_of W sa i p elevation x)
  = Ok (sat_seen (used ts (fst x)) (w_reported W (fst x)) (w_pixel_position W p elevation (w_state W (fst x)) (snd x))).
Proof.
  intro I. unfold pixel_sat, orbit_track. rewrite map_map. cbn [fst prow_of p_time p_geom]. destruct (index_first ts (fst x) I) as (n & t' & A & B & C & D).
  change (map (fun x0 : Z => w_reported W x0) ts) with (map (w_reported W) ts). unfold used. rewrite A. cbn [bind]. rewrite nth_error_map, B. cbn [option_map fst]. now rewrite (nth_error_nth _ _ (fst x) B).
Qed.
Lemma pixel_cols sa i p elevation f g ts X (F : list (arow prow) -> pyres X) :
  bind (mapM (fun x => mapM (fun ij => pixel_row W sa i x (w_pixel_position W p elevation (snd x) ij)) (pixel_indices p)) (orbit_track W ts)) (fun rows =>
    let records := concat rows in
    bind (mapM (fun r => if f : bool then bind (pixel_sat W sat_seen (orbit_track W ts) r) (fun v => Ok (Some v)) else Ok None) records) (fun sat_col =>
      let sun_col := map (fun r => if g : bool then Some (sun_seen (p_time r) (p_geom r)) else None) records in
      let gdf := map (fun x => mk_arow (fst (fst x)) (snd (fst x)) (snd x)) (combine (combine records sat_col) sun_col) in F gdf))
  = F (map (aprow_of sa i p elevation f g ts) (grid p ts)).
Proof.
  rewrite pixel_rows_ok. cbn [bind]. cbv zeta. rewrite (grid_map (prow_of W sa i p elevation)).
  assert (M : mapM (fun r => if f then bind (pixel_sat W sat_seen (orbit_track W ts) r) (fun v => Ok (Some v)) else Ok None) (map (prow_of W sa i p elevation) (grid p ts))
    = Ok (map (fun x => a_sat (aprow_of sa i p elevation f g ts x)) (grid p ts))).
  { rewrite (mapM_map _ (fun r => if f then match pixel_sat W sat_seen (orbit_track W ts) r with Ok v => Some v | Raise _ => None end else None)).
    - f_equal. rewrite map_map. apply map_ext_in. intros x I. cbn [aprow_of a_sat]. destruct f; [|reflexivity]. rewrite pixel_sat_ok; [reflexivity|]. unfold grid in I. destruct x as [t ij]. apply in_prod_iff in I. apply I.
    - intros r I. destruct f; [|reflexivity]. apply in_map_iff in I. destruct I as (x & <- & I). rewrite pixel_sat_ok; [reflexivity|]. unfold grid in I. destruct x as [t ij]. apply in_prod_iff in I. apply I. }
  rewrite M. cbn [bind]. f_equal. rewrite map_map, !combine_map_self, !map_map. reflexivity.
Qed.
Lemma pixels_altaz_none sa times idx i p elevation f g : picks (sa_instruments sa) idx i -> in_pointed i = Some p -> pi_rect p = true ->
  ground_pixels_altaz W sat_seen sun_seen sa times idx elevation None f g = Ok (map (aprow_of sa i p elevation f g times) (grid p times)).
Proof.
  intros P Q RC. unfold ground_pixels_altaz. destruct times as [|t0 times]; [reflexivity|]. cbn [length Nat.eqb]. rewrite (py_index_ok _ _ _ P). cbn [bind]. rewrite Q, RC. cbn [negb].
  exact (pixel_cols sa i p elevation f g (t0 :: times) _ (fun rows => Ok rows)).
Qed.
Lemma pixels_altaz_masked sa times idx i p elevation k f g : picks (sa_instruments sa) idx i -> in_pointed i = Some p -> pi_rect p = true ->
  ground_pixels_altaz W sat_seen sun_seen sa times idx elevation (Some k) f g =
  Ok (match (if Nat.ltb 1 (length times) then filter (kept W k i elevation) times else times) with [] => []
      | ts => clip_points W k (fun a => p_geom (a_row a)) (map (aprow_of sa i p elevation f g ts) (grid p ts)) end).
Proof.
  intros P Q RC. unfold ground_pixels_altaz. destruct times as [|t0 times]; [reflexivity|]. cbn [length Nat.eqb]. rewrite (py_index_ok _ _ _ P). cbn [bind]. rewrite Q, RC. cbn [negb].
  destruct (Nat.ltb 1 _).
  - rewrite cull_times. destruct (filter (kept W k i elevation) (t0 :: times)) as [|t1 ts] eqn:E; [reflexivity|].
    exact (pixel_cols sa i p elevation f g (t1 :: ts) _ (fun rows => Ok (clip_points W k (fun a => p_geom (a_row a)) rows))).
  - exact (pixel_cols sa i p elevation f g (t0 :: times) _ (fun rows => Ok (clip_points W k (fun a => p_geom (a_row a)) rows))).
Qed.
Lemma pixel_columns_lemma : forall sa times idx i p elevation f g, picks (sa_instruments sa) idx i -> in_pointed i = Some p -> pi_rect p = true ->
  exists rows, ground_pixels_altaz W sat_seen sun_seen sa times idx elevation None f g = Ok rows
    /\ Forall2 (fun x a => pixel_row_for W sa i p elevation x (a_row a) /\ exists t, In t times /\ w_reported W t = w_reported W (fst x)
         /\ column f (a_sat a) (sat_seen t (w_reported W (fst x)) (p_geom (a_row a)))
         /\ column g (a_sun a) (sun_seen (w_reported W (fst x)) (p_geom (a_row a)))) (grid p times) rows.
Proof.
  intros sa times idx i p elevation f g P Q RC. eexists. split; [apply pixels_altaz_none; eassumption|]. apply Forall2_map_l. intros x I. split; [apply prow_of_spec|].
  exists (used times (fst x)). destruct x as [t ij]. unfold grid in I. apply in_prod_iff in I. destruct (used_spec times t (proj1 I)) as [U V]. split; [exact U|]. split; [exact V|]. split; reflexivity.
Qed.
Lemma pixel_columns_exact : forall sa times idx i p elevation f g, picks (sa_instruments sa) idx i -> in_pointed i = Some p -> pi_rect p = true ->
  (forall t, In t times -> w_reported W t = t) ->
  exists rows, ground_pixels_altaz W sat_seen sun_seen sa times idx elevation None f g = Ok rows
    /\ Forall2 (fun x a => pixel_row_for W sa i p elevation x (a_row a)
         /\ column f (a_sat a) (sat_seen (fst x) (fst x) (p_geom (a_row a)))
         /\ column g (a_sun a) (sun_seen (fst x) (p_geom (a_row a)))) (grid p times) rows.
Proof.
  intros sa times idx i p elevation f g P Q RC EX. destruct (pixel_columns_lemma sa times idx i p elevation f g P Q RC) as (rows & E & F). exists rows. split; [exact E|].
  assert (FI : forall x, In x (grid p times) -> In (fst x) times) by (intros [t ij] I; unfold grid in I; apply in_prod_iff in I; apply I). clear E.
  induction F as [|x a xs rows [A (t & T & V & B & C)] F IH]; [constructor|]. constructor; [|apply IH; intros; apply FI; now right].
  assert (X := FI x (or_introl eq_refl)). rewrite (EX _ T), (EX _ X) in V. subst t. rewrite (EX _ X) in B, C. auto.
Qed.
Lemma pixel_masked_columns_lemma : forall sa times idx i p elevation k f g, picks (sa_instruments sa) idx i -> in_pointed i = Some p -> pi_rect p = true ->
  clip_keeps (w_clip_order W) ->
  exists rows plain, ground_pixels_altaz W sat_seen sun_seen sa times idx elevation (Some k) f g = Ok rows
    /\ collect_ground_pixels W sa times idx elevation (Some k) = Ok plain
    /\ Permutation (map a_row rows) plain
    /\ forall a, In a rows -> exists x t, In x (grid p times) /\ pixel_row_for W sa i p elevation x (a_row a) /\ In t times /\ w_reported W t = w_reported W (fst x)
         /\ column f (a_sat a) (sat_seen t (w_reported W (fst x)) (p_geom (a_row a)))
         /\ column g (a_sun a) (sun_seen (w_reported W (fst x)) (p_geom (a_row a))).
Proof.
  intros sa times idx i p elevation k f g P Q RC CK. rewrite (pixels_altaz_masked sa times idx i p) by assumption.
  assert (PL : collect_ground_pixels W sa times idx elevation (Some k) =
    Ok (match (if Nat.ltb 1 (length times) then filter (kept W k i elevation) times else times) with [] => []
      | ts => clip_points W k p_geom (map (prow_of W sa i p elevation) (grid p ts)) end)).
  { unfold collect_ground_pixels. destruct times as [|t0 times]; [reflexivity|]. cbn [length Nat.eqb]. rewrite (py_index_ok _ _ _ P). cbn [bind]. rewrite Q, RC. cbn [negb].
    destruct (Nat.ltb 1 _).
    + rewrite cull_times. destruct (filter (kept W k i elevation) (t0 :: times)) as [|t1 l] eqn:E; [reflexivity|]. rewrite pixel_rows_ok. cbn [bind]. now rewrite grid_map.
    + rewrite pixel_rows_ok. cbn [bind]. now rewrite grid_map. }
  rewrite PL. clear PL. set (ts := if Nat.ltb 1 (length times) then filter (kept W k i elevation) times else times).
  assert (I0 : incl ts times) by (unfold ts; destruct (Nat.ltb 1 _); [intros t T; apply filter_In in T; apply T|apply incl_refl]).
  eexists _, _. split; [reflexivity|]. split; [reflexivity|]. clearbody ts.
  assert (E : Permutation (map a_row (clip_points W k (fun a => p_geom (a_row a)) (map (aprow_of sa i p elevation f g ts) (grid p ts)))) (clip_points W k p_geom (map (prow_of W sa i p elevation) (grid p ts)))).
  { unfold clip_points. etransitivity; [apply Permutation_map, CK|]. etransitivity; [|symmetry; apply CK]. rewrite !filter_map_comm, map_map. apply Permutation_refl. }
  split; [destruct ts; [constructor|exact E]|]. intros a I.
  assert (J : In a (clip_points W k (fun a => p_geom (a_row a)) (map (aprow_of sa i p elevation f g ts) (grid p ts)))) by (destruct ts; [destruct I|exact I]). clear I. unfold clip_points in J.
  apply (Permutation_in _ (CK _ _)) in J. apply filter_In in J. destruct J as [J _]. apply in_map_iff in J. destruct J as (x & <- & J).
  assert (T : In (fst x) ts /\ In (snd x) (list_prod (seq 0 (pi_cross_pixels p)) (seq 0 (pi_along_pixels p)))) by (destruct x as [t ij]; unfold grid in J; apply in_prod_iff in J; exact J).
  exists x, (used ts (fst x)). split; [destruct x as [t ij]; unfold grid; apply in_prod_iff; split; [apply I0, T|apply T]|]. split; [apply prow_of_spec|].
  destruct (used_spec ts (fst x) (proj1 T)) as [U V]. split; [apply I0, U|]. split; [exact V|]. split; reflexivity.
Qed.
End Proofs.

(** Two samples within the same millisecond: the pixels of the second one get the satellite position of the first. *)
Definition ex_imager : instrument := mk_instr (lit "imager"%string) 40 (mk_req None None) (Some (mk_pointed 20 10 0 0 true 1 1 0 0)).
Definition ex_imaging : sat := mk_sat (lit "sat"%string) [ex_imager].
Definition ex_rounded : world := ex_world ex_lon ex_lit to_ms.
Lemma ex_imager_picks : picks (sa_instruments ex_imaging) 0 ex_imager.
Proof. exists 0%nat. split; [reflexivity|now left]. Qed.
Lemma wrong_sample : exists (W : world) sat_seen sun_seen sa times i p rows t u a, picks (sa_instruments sa) 0 i /\ in_pointed i = Some p /\ pi_rect p = true
  /\ (forall t, w_reported W t = to_ms t) /\ times = [t; u] /\ (t < u)%Z
  /\ ground_pixels_altaz W sat_seen sun_seen sa times 0 0 None true true = Ok rows /\ nth_error rows 1 = Some a
  /\ pixel_row_for W sa i p 0 (u, (0, 0)%nat) (a_row a)
  /\ forall v, a_sat a <> Some (sat_seen u v (p_geom (a_row a))).
Proof.
  exists ex_rounded, (fun t _ _ => (IZR t, 0%R)), (fun _ _ => (0%R, 0%R)), ex_imaging, [400; 450]%Z, ex_imager, (mk_pointed 20 10 0 0 true 1 1 0 0).
  rewrite (pixels_altaz_none ex_rounded _ _ ex_imaging [400; 450]%Z 0 ex_imager (mk_pointed 20 10 0 0 true 1 1 0 0)) by (first [apply ex_imager_picks|reflexivity]).
  eexists _, 400%Z, 450%Z, _. split; [apply ex_imager_picks|]. split; [reflexivity|]. split; [reflexivity|]. split; [reflexivity|]. split; [reflexivity|]. split; [lia|]. split; [reflexivity|].
  split; [reflexivity|]. split; [apply prow_of_spec|]. intros v E. cbn [aprow_of a_sat] in E. injection E as E. replace (used ex_rounded [400; 450]%Z (fst (450%Z, (0, 0)%nat))) with 400%Z in E by reflexivity.
  apply eq_IZR in E. discriminate.
Qed.
