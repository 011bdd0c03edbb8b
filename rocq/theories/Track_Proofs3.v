(** Proofs about aggregation by orbits, the line method, pixels, UTM codes and target buffers. *)
From Coq Require Import String Reals ZArith List Bool Lra Lia Sorting.Permutation Sorting.Sorted.
From Verif Require Import Base BaseFacts RBase RFacts RTrigFacts Tle_Model Instr_Model Instr_Spec Geom_Model Poly_Model Poly_Spec Poly_Proofs Track_Model Track_Spec Track_Proofs Track_Proofs2.
Import ListNotations.
Local Open Scope Z_scope.

(** *** One row per orbit *)
Lemma dissolve_one W r l : dissolve W (r :: l) = [mk_grow (g_time r) (g_sat r) (g_instr r) (g_valid r) (w_union W (map g_geom (r :: l)))].
Proof. reflexivity. Qed.
Lemma group_rows_head {A} (key : A -> Z) l k : In k (group_keys key l) -> exists r rs, group_rows key k l = r :: rs /\ key r = k /\ In r l.
Proof.
  intro I. destruct (group_rows key k l) as [|r rs] eqn:E.
  - exfalso. apply group_keys_in in I. destruct I as (x & X & K). assert (Y : In x (group_rows key k l)) by (apply group_rows_in; auto). rewrite E in Y. destruct Y.
  - exists r, rs. split; [reflexivity|]. assert (Y : In r (group_rows key k l)) by (rewrite E; now left). apply group_rows_in in Y. tauto.
Qed.
Lemma point_rows_lemma : forall W X (covers : w_G W -> X -> Prop) sa times idx elevation m src period track, is_union covers (w_union W) -> 0 < period ->
  collect_ground_track W sa times idx elevation m src = Ok track ->
  exists rows, compute_ground_track W sa times idx elevation m src MPoint period false = Ok rows
    /\ StronglySorted (fun r s => earlier_orbit (hd 0 times) period (g_time r) (g_time s)) rows
    /\ (forall s, In s track -> g_valid s = true -> exists r, In r rows /\ same_orbit (hd 0 times) period (g_time s) (g_time r))
    /\ (forall r, In r rows -> g_valid r = true /\ (exists s, In s track /\ g_valid s = true /\ g_time r = g_time s /\ g_sat r = g_sat s /\ g_instr r = g_instr s)
         /\ forall x, covers (g_geom r) x <-> exists s, In s track /\ g_valid s = true /\ same_orbit (hd 0 times) period (g_time s) (g_time r) /\ covers (g_geom s) x).
Proof.
  intros W X covers sa times idx elevation m src period track U P E. cbn. unfold point_track. rewrite E. cbn [bind]. eexists. split; [reflexivity|].
  set (t0 := hd 0 times). set (key := fun r : grow (w_G W) => (g_time r - t0) / period). set (V := filter g_valid track).
  change (group_by (fun r => (g_time r - t0) / period) V) with (group_by key V). unfold group_by. rewrite flat_map_map.
  assert (H : forall k, In k (group_keys key V) -> exists r0 rs r, group_rows key k V = r0 :: rs /\ key r0 = k /\ In r0 V /\ dissolve W (group_rows key k V) = [r]
     /\ r = mk_grow (g_time r0) (g_sat r0) (g_instr r0) (g_valid r0) (w_union W (map g_geom (r0 :: rs))) ).
  { intros k I. destruct (group_rows_head key V k I) as (r0 & rs & Q & K & I0). rewrite Q. exists r0, rs; eexists; repeat split; assumption. }
  split; [|split].
  - apply (sorted_flat_map (fun k => dissolve W (group_rows key k V)) Z.lt); [apply group_keys_sorted| |].
    + intros k I. destruct (H _ I) as (r0 & rs & r & _ & _ & _ & D & _). rewrite D. constructor; constructor.
    + intros a b x y IA IB L IX IY. destruct (H _ IA) as (r0 & rs & r & _ & K0 & _ & D & R0). destruct (H _ IB) as (r1 & rs1 & r' & _ & K1 & _ & D1 & R1).
      rewrite D in IX. rewrite D1 in IY. destruct IX as [<-|[]], IY as [<-|[]]. subst r r'. cbn. apply earlier_orbit_iff; [exact P|]. unfold key in *. lia.
  - intros s I G. assert (J : In s V) by (apply filter_In; auto). assert (K : In (key s) (group_keys key V)) by (apply group_keys_in; eauto).
    destruct (H _ K) as (r0 & rs & r & Q & K0 & _ & D & ->). eexists. split; [apply in_flat_map; exists (key s); split; [exact K|rewrite D; now left]|]. cbn.
    apply same_orbit_iff; [exact P|]. symmetry. exact K0.
  - intros r I. apply in_flat_map in I. destruct I as (k & K & I). destruct (H _ K) as (r0 & rs & r' & Q & K0 & I0 & D & R1). rewrite D in I. destruct I as [<-|[]]. subst r'. cbn.
    apply filter_In in I0. destruct I0 as [I0 V0]. split; [exact V0|]. split; [exists r0; auto 10|]. intro x. rewrite (U _ x). split.
    + intros (g & G & C). change (In g (map g_geom (r0 :: rs))) in G. rewrite <- Q in G. apply in_map_iff in G. destruct G as (s & <- & S0). apply group_rows_in in S0. destruct S0 as [S0 KS]. apply filter_In in S0.
      exists s. repeat split; try tauto. apply same_orbit_iff; [exact P|]. unfold key in *. congruence.
    + intros (s & S0 & VS & O & C). exists (g_geom s). split; [|exact C]. change (In (g_geom s) (map g_geom (r0 :: rs))). rewrite <- Q. apply in_map. apply group_rows_in. split; [apply filter_In; auto|].
      apply (same_orbit_iff _ _ _ _ P) in O. unfold key in *. congruence.
Qed.

(** *** The line method *)
Lemma filter_some_some {A} (l : list A) : filter_some (map Some l) = l.
Proof. induction l as [|x l IH]; cbn; [reflexivity|]. now rewrite IH. Qed.
Lemma groups_at t0 period track ig : map (map Some) (line_groups t0 period track) = map (map (nth_error track)) ig -> line_groups t0 period track = map (rows_at track) ig.
Proof.
  intro H. apply (f_equal (map filter_some)) in H. rewrite !map_map in H. unfold rows_at. rewrite <- H. symmetry. rewrite <- (map_id (line_groups t0 period track)) at 2.
  apply map_ext. intro. apply filter_some_some.
Qed.
Lemma px_at elevation g : map px (at_elevation elevation g) = map (fun r => px (o_geom r)) g.
Proof. unfold at_elevation. rewrite map_map. reflexivity. Qed.
Lemma segments_plain W elevation g : plain_run g -> segments_of W elevation g = Ok [at_elevation elevation g].
Proof.
  intros [L N]. unfold segments_of. rewrite px_at, (no_crossing_spec _ N). replace (Nat.eqb _ 1) with false; [reflexivity|]. symmetry. apply Nat.eqb_neq.
  unfold at_elevation. rewrite map_length. lia.
Qed.
Lemma mapM_map {A B} (f : A -> pyres B) (g : A -> B) l : (forall x, In x l -> f x = Ok (g x)) -> mapM f l = Ok (map g l).
Proof.
  induction l as [|x l IH]; cbn; intro H; [reflexivity|]. rewrite H by now left. cbn. rewrite IH by (intros; apply H; now right). reflexivity.
Qed.
Lemma concat_single {A B} (f : A -> B) l : concat (map (fun x => [f x]) l) = map f l.
Proof. induction l as [|x l IH]; cbn; [reflexivity|]. now rewrite IH. Qed.
Lemma known_filter l : known l (filter_some l).
Proof. induction l as [|[x|] l IH]; cbn; constructor; exact IH. Qed.
Lemma mean_spec l : is_mean l (mean_skipna l).
Proof.
  exists (filter_some l). split; [apply known_filter|]. unfold mean_skipna. destruct (filter_some l) as [|x v]; [reflexivity|]. split; [discriminate|].
  field. apply not_0_INR. discriminate.
Qed.
Lemma rows_at_valid t0 period track ig g r : grouped t0 period track ig -> In g ig -> In r (rows_at track g) -> o_valid r = true.
Proof.
  intros (_ & V & _) I J. unfold rows_at in J. assert (K : exists i, In i g /\ nth_error track i = Some r).
  { clear - J. induction g as [|i g IH]; cbn in J; [destruct J|]. destruct (nth_error track i) eqn:E; [destruct J as [<-|J]; [exists i; split; [now left|exact E]|]|]; (destruct (IH J) as (j & J1 & J2); exists j; split; [now right|exact J2]). }
  destruct K as (i & II & N). destruct (proj1 (V i)) as (r' & N' & V'); [apply in_concat; eauto|]. congruence.
Qed.
Lemma line_lemma : forall W sa times idx elevation code period track,
  0 < period -> collect_orbit_track W sa times idx elevation None WGS84 false false false false = Ok track ->
  exists ig, grouped (hd 0 times) period track ig
    /\ ((forall g, In g ig -> plain_run (rows_at track g)) ->
        exists rows, compute_ground_track W sa times idx elevation None (Crs code) MLine period false = Ok rows
          /\ Forall2 (fun g r => own_row W code elevation (rows_at track g) r) ig rows).
Proof.
  intros W sa times idx elevation code period track P E. destruct (grouping_lemma (hd 0 times) period track P) as (ig & Q & GR). exists ig. split; [exact GR|].
  intro PR. cbn. unfold line_track. rewrite E. cbn [bind]. rewrite (groups_at _ _ _ _ Q).
  rewrite (mapM_map (segments_of W elevation) (fun g => [at_elevation elevation g])). 2:{ intros g I. apply in_map_iff in I. destruct I as (g' & <- & I). apply segments_plain, PR, I. }
  cbn [bind]. rewrite concat_single, combine_map_self, map_map. cbn [fst snd]. rewrite !map_length, Nat.eqb_refl. cbn [negb].
  eexists. split; [reflexivity|].
  set (poly := fun x => w_buffer_line W code elevation (at_elevation elevation x) (mean_skipna (map o_swath x))).
  rewrite <- (map_id (map (rows_at track) ig)) at 1. rewrite combine_map_self, map_map. rewrite flat_map_map. cbn [fst snd].
  assert (NE : forall g, In g ig -> exists r0 l, rows_at track g = r0 :: l /\ o_valid r0 = true).
  { intros g I. destruct (rows_at track g) as [|r0 l] eqn:R0; [destruct (PR g I) as [L _]; rewrite R0 in L; cbn in L; lia|]. exists r0, l. split; [reflexivity|].
    eapply rows_at_valid; [exact GR|exact I|rewrite R0; now left]. }
  clear - NE. induction ig as [|g ig IH]; cbn; [constructor|]. destruct (NE g (or_introl eq_refl)) as (r0 & l & R0 & V0).
  assert (IH' := IH (fun h Hh => NE h (or_intror Hh))). rewrite R0. cbn [app]. constructor; [|exact IH'].
  rewrite R0. exists r0, l, (mean_skipna (map o_swath (r0 :: l))). repeat (split; [first [reflexivity|assumption]|]). split; [apply mean_spec|reflexivity].
Qed.
Lemma segments_raise W elevation g : match segments_of W elevation g with Raise e => e = GEOSError | Ok _ => True end.
Proof. unfold segments_of. destruct (no_crossing _); [destruct (Nat.eqb _ 1)|]; auto. Qed.
Lemma segments_one W elevation r : segments_of W elevation [r] = Raise GEOSError.
Proof. reflexivity. Qed.
Lemma mapM_raise {A B} (f : A -> pyres B) e l x : (forall y, match f y with Raise e' => e' = e | Ok _ => True end) -> In x l -> f x = Raise e -> mapM f l = Raise e.
Proof.
  intros H I R1. induction l as [|y l IH]; [destruct I|]. cbn. destruct I as [->|I]; [now rewrite R1|]. specialize (H y). destruct (f y) as [v|e']; cbn; [|now subst]. now rewrite IH.
Qed.
Lemma line_single_lemma : forall W sa times idx elevation m code period d track i r,
  0 < period -> collect_orbit_track W sa times idx elevation None WGS84 false false false false = Ok track ->
  nth_error track i = Some r -> o_valid r = true -> (forall j, together (hd 0 times) period track i j -> j = i) ->
  compute_ground_track W sa times idx elevation m (Crs code) MLine period d = Raise GEOSError.
Proof.
  intros W sa times idx elevation m code period d track i r P E N V AL. destruct (grouping_lemma (hd 0 times) period track P) as (ig & Q & ND & VA & TO & SS & _).
  cbn. unfold line_track. rewrite E. cbn [bind]. rewrite (groups_at _ _ _ _ Q).
  assert (I : In i (concat ig)) by (apply VA; eauto). apply in_concat in I. destruct I as (g & G & I).
  assert (g = [i]).
  { destruct (SS g G) as [S0 _]. assert (A1 : forall j, In j g -> j = i) by (intros j J; apply AL; apply (TO g i j G I); exact J).
    destruct g as [|a [|b g]]; [destruct I| |].
    - rewrite (A1 a) by now left. reflexivity.
    - exfalso. inversion S0 as [|? ? _ F]; subst. inversion F as [|? ? L _]; subst. rewrite (A1 a), (A1 b) in L; [lia|right; now left|now left]. }
  subst g. rewrite (mapM_raise _ GEOSError _ (rows_at track [i])); [reflexivity|apply segments_raise|now apply in_map|]. unfold rows_at. cbn. rewrite N. reflexivity.
Qed.

(** *** Pixels *)
Definition prow_of W sa i p elevation (x : Z * (nat * nat)) : prow :=
  let s := w_state W (fst x) in let q := w_pixel_position W p elevation s (snd x) in
  mk_prow (w_reported W (fst x)) (sa_name sa) (in_name i) (ok1 (in_req i) (w_sunlit W s, w_solar_alt_at W q s)) q.
Lemma prow_of_spec W sa i p elevation x : pixel_row_for W sa i p elevation x (prow_of W sa i p elevation x).
Proof. unfold pixel_row_for, prow_of. cbn. repeat (split; [reflexivity|]). apply ok1_iff. Qed.
Lemma indices_prod p : pixel_indices p = list_prod (seq 0 (pi_cross_pixels p)) (seq 0 (pi_along_pixels p)).
Proof. unfold pixel_indices. induction (seq 0 (pi_cross_pixels p)) as [|a l IH]; cbn; [reflexivity|]. now rewrite IH. Qed.
Lemma grid_map {X} (f : Z * (nat * nat) -> X) p ts : concat (map (fun t => map (fun ij => f (t, ij)) (pixel_indices p)) ts) = map f (grid p ts).
Proof.
  unfold grid. rewrite <- indices_prod. induction ts as [|t ts IH]; cbn; [reflexivity|]. rewrite map_app, map_map, IH. reflexivity.
Qed.
Lemma pixel_row_ok W sa i p elevation t ij : pixel_row W sa i (t, w_state W t) (w_pixel_position W p elevation (w_state W t) ij) = Ok (prow_of W sa i p elevation (t, ij)).
Proof. unfold pixel_row. cbn [fst snd]. rewrite validity_map by discriminate. reflexivity. Qed.
Lemma pixel_rows_ok W sa i p elevation ts :
  mapM (fun x => mapM (fun ij => pixel_row W sa i x (w_pixel_position W p elevation (snd x) ij)) (pixel_indices p)) (orbit_track W ts)
  = Ok (map (fun t => map (fun ij => prow_of W sa i p elevation (t, ij)) (pixel_indices p)) ts).
Proof.
  rewrite (mapM_map _ (fun x => map (fun ij => prow_of W sa i p elevation (fst x, ij)) (pixel_indices p))).
  - unfold orbit_track. rewrite map_map. reflexivity.
  - intros [t s] I. apply in_map_iff in I. destruct I as (u & Q & _). injection Q as -> <-. apply mapM_map. intros ij _. cbn [snd fst]. apply pixel_row_ok.
Qed.
Lemma pixels_none W sa times idx i p elevation : picks (sa_instruments sa) idx i -> in_pointed i = Some p -> pi_rect p = true ->
  collect_ground_pixels W sa times idx elevation None = Ok (map (prow_of W sa i p elevation) (grid p times)).
Proof.
  intros P Q RC. unfold collect_ground_pixels. destruct times as [|t0 times]; [reflexivity|]. cbn [length Nat.eqb]. rewrite (py_index_ok _ _ _ P). cbn [bind]. rewrite Q, RC. cbn [negb].
  rewrite pixel_rows_ok. cbn [bind]. rewrite grid_map. reflexivity.
Qed.
Lemma pixels_lemma : forall W sa times idx i p elevation, picks (sa_instruments sa) idx i -> in_pointed i = Some p -> pi_rect p = true ->
  exists rows, collect_ground_pixels W sa times idx elevation None = Ok rows /\ Forall2 (pixel_row_for W sa i p elevation) (grid p times) rows.
Proof. intros. eexists. split; [eapply pixels_none; eassumption|]. apply Forall2_map_l. intros. apply prow_of_spec. Qed.
Lemma pixels_bad_lemma : forall W sa times idx i elevation m, times <> [] -> picks (sa_instruments sa) idx i ->
  (forall p, in_pointed i = Some p -> pi_rect p = false) -> collect_ground_pixels W sa times idx elevation m = Raise ValueError.
Proof.
  intros W sa times idx i elevation m N P B. unfold collect_ground_pixels. destruct times as [|t0 times]; [congruence|]. cbn [length Nat.eqb]. rewrite (py_index_ok _ _ _ P). cbn [bind].
  destruct (in_pointed i) as [p|]; [rewrite (B p eq_refl)|]; reflexivity.
Qed.
Lemma grid_count p times : length (grid p times) = (length times * (pi_cross_pixels p * pi_along_pixels p))%nat.
Proof. unfold grid. rewrite !prod_length, !seq_length. reflexivity. Qed.
Lemma filter_prod {A B} (f : A * B -> bool) (g : A -> bool) l m : (forall a b, In a l -> f (a, b) = true -> g a = true) -> filter f (list_prod (filter g l) m) = filter f (list_prod l m).
Proof.
  induction l as [|a l IH]; cbn; intro H; [reflexivity|]. assert (IH' := IH (fun x y X => H x y (or_intror X))). rewrite filter_app. destruct (g a) eqn:E.
  - cbn. rewrite filter_app. now rewrite IH'.
  - rewrite IH'. assert (Z0 : filter f (map (fun y => (a, y)) m) = []).
    { rewrite filter_map_comm. clear - H E. induction m as [|b m IHm]; cbn; [reflexivity|]. destruct (f (a, b)) eqn:F; [|exact IHm]. rewrite (H a b (or_introl eq_refl) F) in E. discriminate. }
    now rewrite Z0.
Qed.
Lemma pixels_masked_lemma : forall W sa times idx i p elevation (k : mask (w_G W)), picks (sa_instruments sa) idx i -> in_pointed i = Some p -> pi_rect p = true ->
  clip_keeps (w_clip_order W) -> (forall t, In t times -> pixel_cull_sound W k i p elevation t) ->
  exists all rows, collect_ground_pixels W sa times idx elevation None = Ok all
    /\ collect_ground_pixels W sa times idx elevation (Some k) = Ok rows
    /\ Permutation rows (filter (fun r => m_intersects k (px (p_geom r)) (py (p_geom r))) all).
Proof.
  intros W sa times idx i p elevation k P Q RC CK SO. exists (map (prow_of W sa i p elevation) (grid p times)).
  set (ts := if Nat.ltb 1 (length times) then filter (kept W k i elevation) times else times).
  exists (match ts with [] => [] | _ => clip_points W k p_geom (map (prow_of W sa i p elevation) (grid p ts)) end).
  split; [now apply pixels_none|]. split.
  - unfold collect_ground_pixels. unfold ts. destruct times as [|t0 times]; [reflexivity|]. cbn [length Nat.eqb]. rewrite (py_index_ok _ _ _ P). cbn [bind]. rewrite Q, RC. cbn [negb].
    destruct (Nat.ltb 1 _).
    + rewrite cull_times. destruct (filter (kept W k i elevation) (t0 :: times)) as [|t1 l] eqn:E; [reflexivity|]. rewrite pixel_rows_ok. cbn [bind]. now rewrite grid_map.
    + rewrite pixel_rows_ok. cbn [bind]. now rewrite grid_map.
  - assert (F : filter (fun r => m_intersects k (px (p_geom r)) (py (p_geom r))) (map (prow_of W sa i p elevation) (grid p ts)) = filter (fun r => m_intersects k (px (p_geom r)) (py (p_geom r))) (map (prow_of W sa i p elevation) (grid p times))).
    { rewrite !filter_map_comm. f_equal. unfold ts. destruct (Nat.ltb 1 _); [|reflexivity]. unfold grid. apply filter_prod. intros t ij T M. unfold kept. apply andb_true_iff. apply (SO t T ij). exact M. }
    rewrite <- F. destruct ts as [|t l]; [constructor|]. unfold clip_points. apply CK.
Qed.

(** *** Bad arguments *)
Lemma bad_index_lemma : forall W sa times idx elevation m c v f1 f2 f3, times <> [] ->
  (idx < - Z.of_nat (length (sa_instruments sa)) \/ Z.of_nat (length (sa_instruments sa)) <= idx) ->
  collect_orbit_track W sa times idx elevation m c v f1 f2 f3 = Raise IndexError
  /\ (forall src, collect_ground_track W sa times idx elevation m src = Raise IndexError)
  /\ collect_ground_pixels W sa times idx elevation m = Raise IndexError.
Proof.
  intros. destruct times as [|t0 times]; [congruence|]. unfold collect_orbit_track, collect_ground_track, collect_ground_pixels. cbn [length Nat.eqb].
  rewrite (py_index_bad _ _ H0). auto.
Qed.
Local Open Scope R_scope.

(** *** UTM codes *)
Lemma utm_lemma : forall clipped query x y swath b,
  clipped x y (degrees (swath / 2 / EARTH_MEAN_RADIUS)) = Some b ->
  let north := y + degrees (swath / 2 / EARTH_MEAN_RADIUS) in
  let south := y - degrees (swath / 2 / EARTH_MEAN_RADIUS) in
  exists code, get_utm_epsg_code clipped query x y swath = Ok code
    /\ (84 < north -> code = lit "EPSG:5041"%string)
    /\ (north <= 84 -> south < -80 -> code = lit "EPSG:5042"%string)
    /\ (north <= 84 -> -80 <= south -> forall c l, query b = c :: l -> code = (lit "EPSG:"%string ++ c)%list)
    /\ (north <= 84 -> -80 <= south -> query b = [] -> code = lit "EPSG:4087"%string).
Proof.
  intros clipped query x y swath b C north south. unfold get_utm_epsg_code. rewrite C. eexists. split; [reflexivity|]. fold north south. repeat split; intros.
  - now rewrite (proj2 (Rltb_spec 84 north)).
  - rewrite (proj2 (Rltb_false 84 north)) by lra. now rewrite (proj2 (Rltb_spec south (-80))).
  - rewrite (proj2 (Rltb_false 84 north)), (proj2 (Rltb_false south (-80))) by lra. now rewrite H1.
  - rewrite (proj2 (Rltb_false 84 north)), (proj2 (Rltb_false south (-80))) by lra. now rewrite H1.
Qed.

(** *** Target buffers *)
Lemma radians_sub a b : radians (a - b) = radians a - radians b.
Proof. unfold radians. lra. Qed.
Lemma great_meridian lon a b z w : Rabs (b - a) <= 180 -> great_circle (mk_coord lon a z) (mk_coord lon b w) = radians (Rabs (b - a)).
Proof.
  intro H. unfold great_circle, on_globe, cx, cy. 
  replace (_ + _ + _) with (cos (radians (Rabs (b - a)))).
  - apply acos_cos. pose proof PI_RGT_0. pose proof (Rabs_pos (b - a)). unfold radians. split; [apply Rmult_le_pos; lra|nra].
  - assert (C : cos (radians (Rabs (b - a))) = cos (radians (b - a))).
    { unfold Rabs. destruct (Rcase_abs (b - a)); [|reflexivity]. rewrite <- cos_neg. f_equal. unfold radians. lra. }
    rewrite C, radians_sub, cos_minus. pose proof (sin2_cos2 (radians lon)) as S0. unfold Rsqr in S0. 
    transitivity (cos (radians a) * cos (radians b) * (sin (radians lon) * sin (radians lon) + cos (radians lon) * cos (radians lon)) + sin (radians a) * sin (radians b)); [rewrite S0; lra|ring].
Qed.
Lemma target_meridian_lemma : forall radius distance lon a b, 0 < radius -> Rabs (b - a) <= 180 ->
  radius * great_circle (mk_coord lon a None) (mk_coord lon b None) <= distance -> in_target_buffer radius distance (lon, a) (lon, b).
Proof.
  intros radius distance lon a b P H D. rewrite great_meridian in D by exact H. exists 0%Z. cbn [fst snd].
  replace (radians (lon + 360 * 0 - lon)) with 0 by (unfold radians; lra).
  assert (E : (radius * radians (b - a)) ^ 2 = (radius * radians (Rabs (b - a))) ^ 2).
  { unfold radians. rewrite !Rpow_mult_distr. f_equal. f_equal. rewrite <- !Rsqr_pow2. apply Rsqr_abs. }
  rewrite E. rewrite Rmult_0_r, pow_i by auto. rewrite Rplus_0_l. apply pow_incr. split; [|exact D]. apply Rmult_le_pos; [lra|]. unfold radians. pose proof PI_RGT_0. pose proof (Rabs_pos (b - a)). apply Rmult_le_pos; lra.
Qed.
Lemma target_pole_lemma : forall radius, 0 < radius ->
  radius * great_circle (mk_coord 0 89 None) (mk_coord 180 89 None) <= radius * radians 2
  /\ ~ in_target_buffer radius (radius * radians 179) (0, 89) (180, 89).
Proof.
  intros radius P. split.
  - apply Rmult_le_compat_l; [lra|]. unfold great_circle, on_globe, cx, cy.
    assert (R180 : radians 180 = PI) by (unfold radians; field). assert (R0 : radians 0 = 0) by (unfold radians; lra).
    rewrite R180, R0, cos_PI, sin_PI, cos_0, sin_0.
    replace (_ + _ + _) with (cos (radians 2)).
    + rewrite acos_cos; [lra|]. unfold radians. pose proof PI_RGT_0. lra.
    + replace (radians 2) with (PI - 2 * radians 89) by (unfold radians; field). rewrite cos_minus, cos_PI, sin_PI, cos_2a. lra.
  - intros [k K]. cbn [fst snd] in K. replace (radians (89 - 89)) with 0 in K by (unfold radians; lra). rewrite Rmult_0_r, pow_i, Rplus_0_r in K by auto.
    rewrite !Rpow_mult_distr in K. apply Rmult_le_reg_l in K; [|apply pow_lt; exact P]. unfold radians in K. rewrite !Rpow_mult_distr in K.
    apply Rmult_le_reg_r in K; [|apply pow_lt; pose proof PI_RGT_0; lra].
    assert (B : (1 <= Z.abs (1 + 2 * k))%Z) by lia. apply IZR_le in B. rewrite abs_IZR, plus_IZR, mult_IZR in B.
    replace (180 + 360 * IZR k - 0) with (180 * (1 + 2 * IZR k)) in K by lra. rewrite Rpow_mult_distr in K. rewrite <- (pow2_abs (1 + 2 * IZR k)) in K.
    pose proof (pow_incr 1 (Rabs (1 + 2 * IZR k)) 2) as Q. rewrite pow1 in Q. assert (1 <= Rabs (1 + 2 * IZR k) ^ 2) by (apply Q; lra). nra.
Qed.
