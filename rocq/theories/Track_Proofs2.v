(** Proofs about the rows of tracks, masks, aggregation and pixels. *)
From Coq Require Import String Reals ZArith List Bool Lra Lia Sorting.Permutation Sorting.Sorted.
From Verif Require Import Base BaseFacts RBase RFacts Tle_Model Instr_Model Instr_Spec Geom_Model Poly_Model Poly_Spec Poly_Proofs Track_Model Track_Spec Track_Proofs.
Import ListNotations.
Local Open Scope Z_scope.

(** *** Validity *)
Definition met (req : option bool) (b : bool) : bool := match req with None => true | Some r => Bool.eqb b r end.
Definition ok1 (q : requirement) (x : bool * R) : bool := met (req_self q) (fst x) && met (req_target q) (Rltb 0 (snd x)).
Lemma require_map {A} (req : option bool) (f g : A -> bool) l : require req (map f l) (map g l) = map (fun x => f x && met req (g x)) l.
Proof.
  destruct req as [r|]; cbn; [|apply map_ext; intro; now rewrite andb_true_r].
  induction l as [|x l IH]; cbn; [reflexivity|]. now rewrite IH.
Qed.
Lemma validity_vector q l : l <> [] -> bind (is_valid_observation q l) (fun a => Ok (as_vector a)) = Ok (map (ok1 q) l).
Proof.
  intro N. unfold is_valid_observation. rewrite !require_map. destruct l as [|x [|y l]]; [congruence|reflexivity|reflexivity].
Qed.
Lemma met_iff req b P : (b = true <-> P) -> (met req b = true <-> meets req P).
Proof. intro H. destruct req as [[|]|]; cbn; [destruct b; cbn; tauto| |tauto]. destruct b; cbn; split; intro K; try discriminate; try reflexivity; [exfalso; apply K; now apply H|]. intro X. apply H in X. discriminate. Qed.
Lemma ok1_iff q x : ok1 q x = true <-> meets (req_self q) (fst x = true) /\ meets (req_target q) (0 < snd x)%R.
Proof. unfold ok1. rewrite andb_true_iff, (met_iff _ _ (fst x = true)), (met_iff _ _ (0 < snd x)%R); [tauto|apply Rltb_spec|tauto]. Qed.
Lemma validity_map W i tgt l : l <> [] -> validity W i tgt l = Ok (map (fun s => ok1 (in_req i) (w_sunlit W s, w_solar_alt_at W (tgt s) s)) l).
Proof. intro N. unfold validity. rewrite validity_vector; [now rewrite map_map|]. destruct l; [congruence|discriminate]. Qed.
Lemma combine_map_self {A B C} (f : A -> B) (g : A -> C) l : combine (map f l) (map g l) = map (fun x => (f x, g x)) l.
Proof. induction l as [|x l IH]; cbn; [reflexivity|]. now rewrite IH. Qed.
Lemma Forall2_map_l {A B} (R : A -> B -> Prop) (f : A -> B) l : (forall x, In x l -> R x (f x)) -> Forall2 R l (map f l).
Proof. induction l as [|x l IH]; cbn; intro H; constructor; [apply H; now left|apply IH; intros; apply H; now right]. Qed.

(** *** Orbit tracks *)
Definition orow_of W sa i elevation c v f1 f2 f3 t : orow :=
  let s := w_state W t in
  orbit_row W sa i elevation c v f1 f2 f3 ((t, s), ok1 (in_req i) (w_sunlit W s, w_solar_alt_at W (w_ssp W s) s)).
Lemma orow_of_spec W sa i elevation c v f1 f2 f3 t : orbit_row_for W sa i elevation c v f1 f2 f3 t (orow_of W sa i elevation c v f1 f2 f3 t).
Proof.
  unfold orow_of, orbit_row_for, orbit_row. cbn. repeat (split; [reflexivity|]). split; [apply ok1_iff|]. unfold point_in, velocity_in.
  destruct c, v; repeat split; intros; congruence.
Qed.
Lemma collect_none W sa times idx i elevation c v f1 f2 f3 : picks (sa_instruments sa) idx i ->
  collect_orbit_track W sa times idx elevation None c v f1 f2 f3 = Ok (map (orow_of W sa i elevation c v f1 f2 f3) times).
Proof.
  intro P. unfold collect_orbit_track. destruct times as [|t0 times]; [reflexivity|]. cbn [length Nat.eqb]. rewrite (py_index_ok _ _ _ P). cbn [bind].
  rewrite validity_map by discriminate. cbn [bind]. unfold orbit_track. rewrite map_map. cbn [snd]. rewrite map_map, combine_map_self, map_map. reflexivity.
Qed.
Lemma orbit_rows_lemma : forall W sa times idx i elevation c v f1 f2 f3, picks (sa_instruments sa) idx i ->
  exists rows, collect_orbit_track W sa times idx elevation None c v f1 f2 f3 = Ok rows
    /\ Forall2 (orbit_row_for W sa i elevation c v f1 f2 f3) times rows.
Proof.
  intros. eexists. split; [eapply collect_none; eassumption|]. apply Forall2_map_l. intros. apply orow_of_spec.
Qed.
Lemma filter_none {A} (f : A -> bool) l : existsb f l = false -> filter f l = [].
Proof. induction l as [|x l IH]; cbn; [reflexivity|]. destruct (f x); cbn; [discriminate|exact IH]. Qed.
Lemma filter_map_comm {A B} (f : A -> B) (p : B -> bool) l : filter p (map f l) = map f (filter (fun x => p (f x)) l).
Proof. apply map_filter_swap. Qed.
Lemma filter_all {A} (p : A -> bool) l : (forall x, In x l -> p x = true) -> filter p l = l.
Proof. induction l as [|x l IH]; cbn; intro H; [reflexivity|]. rewrite H by now left. f_equal. apply IH. intros. apply H. now right. Qed.
Lemma collect_masked W sa times idx i elevation (k : mask (w_G W)) c v f1 f2 f3 : picks (sa_instruments sa) idx i -> times_in W k times <> [] ->
  collect_orbit_track W sa times idx elevation (Some k) c v f1 f2 f3
  = Ok (clip_points W k o_geom (map (orow_of W sa i elevation c v f1 f2 f3) (times_in W k times))).
Proof.
  intros P N. unfold collect_orbit_track. destruct times as [|t0 times]; [now contradiction N|]. cbn [length Nat.eqb]. rewrite (py_index_ok _ _ _ P). cbn [bind].
  unfold orbit_track. rewrite filter_map_comm. cbn [snd]. fold (times_in W k (t0 :: times)).
  replace (existsb _ _) with true. 2:{ symmetry. apply not_false_is_true. intro E. apply filter_none in E. rewrite filter_map_comm in E. cbn [snd] in E. fold (times_in W k (t0 :: times)) in E. apply map_eq_nil in E. contradiction. }
  cbn [negb]. set (ts := times_in W k (t0 :: times)) in *. rewrite validity_map by (rewrite map_map; destruct ts; [congruence|discriminate]). cbn [bind].
  rewrite !map_map. cbn [snd]. rewrite combine_map_self, map_map. reflexivity.
Qed.
Lemma orbit_masked_lemma : forall W sa times idx i elevation (k : mask (w_G W)) v f1 f2 f3, picks (sa_instruments sa) idx i ->
  clip_keeps (w_clip_order W) -> (forall x y, m_contains k x y = true -> m_intersects k x y = true) ->
  exists rows unordered, collect_orbit_track W sa times idx elevation (Some k) WGS84 v f1 f2 f3 = Ok rows
    /\ Permutation rows unordered /\ Forall2 (orbit_row_for W sa i elevation WGS84 v f1 f2 f3) (times_in W k times) unordered.
Proof.
  intros W sa times idx i elevation k v f1 f2 f3 P CK CI. destruct (times_in W k times) as [|t l] eqn:E.
  - exists [], []. split; [|split; [constructor|constructor]]. unfold collect_orbit_track. destruct times as [|t0 times]; [reflexivity|]. cbn [length Nat.eqb].
    rewrite (py_index_ok _ _ _ P). cbn [bind]. unfold orbit_track. replace (existsb _ _) with false; [reflexivity|]. symmetry. apply not_true_is_false. intro X.
    apply existsb_exists in X. destruct X as ([t s] & I & C). apply in_map_iff in I. destruct I as (t' & Q & I). injection Q as -> <-. cbn in C.
    assert (Y : In t (times_in W k (t0 :: times))) by (apply filter_In; auto). rewrite E in Y. destruct Y.
  - exists (clip_points W k o_geom (map (orow_of W sa i elevation WGS84 v f1 f2 f3) (t :: l))), (map (orow_of W sa i elevation WGS84 v f1 f2 f3) (t :: l)).
    split; [rewrite <- E; apply collect_masked; [exact P|rewrite E; discriminate]|]. split.
    + unfold clip_points. etransitivity; [apply CK|]. rewrite filter_all; [reflexivity|]. intros r I. apply in_map_iff in I. destruct I as (u & <- & I). cbn.
      rewrite <- E in I. apply filter_In in I. apply CI, I.
    + apply Forall2_map_l. intros. apply orow_of_spec.
Qed.

(** *** Ground tracks *)
Definition grow_of W sa i elevation src t : grow (w_G W) :=
  let s := w_state W t in
  mk_grow (w_reported W t) (sa_name sa) (in_name i) (ok1 (in_req i) (w_sunlit W s, w_solar_alt_at W (w_footprint_center W i elevation s) s))
    (ground_geometry W src i elevation (t, s)).
Lemma grow_of_spec W sa i elevation src t : ground_row_for W sa i elevation src t (grow_of W sa i elevation src t).
Proof. unfold ground_row_for, grow_of. cbn. repeat (split; [reflexivity|]). split; [apply ok1_iff|]. destruct src; reflexivity. Qed.
Definition track_rows W sa i elevation src (ts : list Z) := map (grow_of W sa i elevation src) ts.
Lemma rows_of_track W sa i elevation src ts : ts <> [] -> forall X (f : list (grow (w_G W)) -> pyres X),
  bind (validity W i (w_footprint_center W i elevation) (map snd (orbit_track W ts))) (fun valid =>
    f (map (fun x => mk_grow (w_reported W (fst (fst x))) (sa_name sa) (in_name i) (snd x) (ground_geometry W src i elevation (fst x))) (combine (orbit_track W ts) valid)))
  = f (track_rows W sa i elevation src ts).
Proof.
  intros N X f. unfold orbit_track. rewrite validity_map by (destruct ts; [congruence|discriminate]). cbn [bind]. f_equal. rewrite !map_map. cbn [snd].
  rewrite combine_map_self, map_map. reflexivity.
Qed.
Lemma ground_none W sa times idx i elevation src : picks (sa_instruments sa) idx i ->
  collect_ground_track W sa times idx elevation None src = Ok (track_rows W sa i elevation src times).
Proof.
  intro P. unfold collect_ground_track. destruct times as [|t0 times]; [reflexivity|]. cbn [length Nat.eqb]. rewrite (py_index_ok _ _ _ P). cbn [bind].
  apply (rows_of_track W sa i elevation src (t0 :: times) ltac:(discriminate) _ (fun rows => Ok rows)).
Qed.
Lemma ground_rows_lemma : forall W sa times idx i elevation src, picks (sa_instruments sa) idx i ->
  exists rows, collect_ground_track W sa times idx elevation None src = Ok rows /\ Forall2 (ground_row_for W sa i elevation src) times rows.
Proof. intros. eexists. split; [eapply ground_none; eassumption|]. apply Forall2_map_l. intros. apply grow_of_spec. Qed.
Definition kept W (k : mask (w_G W)) i elevation t : bool :=
  m_buffered k (px (w_ssp W (w_state W t))) (py (w_ssp W (w_state W t))) && m_meets k (w_footprint W i elevation (w_state W t)).
Lemma cull_times W i elevation (k : mask (w_G W)) times : cull W i elevation k (orbit_track W times) =
  match filter (kept W k i elevation) times with [] => None | l => Some (orbit_track W l) end.
Proof.
  unfold cull, orbit_track. rewrite !filter_map_comm, filter_filter. cbn [snd]. fold (kept W k i elevation).
  change (fun x : Z => m_buffered k (px (w_ssp W (w_state W x))) (py (w_ssp W (w_state W x))) && m_meets k (w_footprint W i elevation (w_state W x))) with (kept W k i elevation).
  destruct (Nat.eqb _ 0) eqn:E.
  - apply Nat.eqb_eq in E. rewrite map_length in E. apply length_zero_iff_nil in E.
    replace (filter (kept W k i elevation) times) with (@nil Z); [reflexivity|]. symmetry. unfold kept. rewrite <- filter_filter, E. reflexivity.
  - rewrite map_length. destruct (filter (kept W k i elevation) times); reflexivity.
Qed.
Lemma clip_rows_perm W (k : mask (w_G W)) rows : clip_keeps (w_clip_order W) -> Permutation (clip_rows W k rows) (filter_some (map (cut_row k) rows)).
Proof. intro CK. unfold clip_rows. apply CK. Qed.
Lemma filter_some_map_filter {A B} (f : A -> option B) (p : A -> bool) l : (forall x, In x l -> f x <> None -> p x = true) ->
  filter_some (map f (filter p l)) = filter_some (map f l).
Proof.
  induction l as [|x l IH]; cbn; intro H; [reflexivity|]. assert (IH' := IH (fun y Y => H y (or_intror Y))). destruct (p x) eqn:E; cbn.
  - destruct (f x); now rewrite IH'.
  - destruct (f x) eqn:F; [|exact IH']. specialize (H x (or_introl eq_refl)). rewrite F in H. rewrite H in E; discriminate.
Qed.
Lemma ground_masked W sa times idx i elevation (k : mask (w_G W)) src : picks (sa_instruments sa) idx i ->
  collect_ground_track W sa times idx elevation (Some k) src =
  Ok (match (if Nat.ltb 1 (length times) then filter (kept W k i elevation) times else times) with [] => [] | ts => clip_rows W k (track_rows W sa i elevation src ts) end).
Proof.
  intro P. unfold collect_ground_track. destruct times as [|t0 times]; [reflexivity|]. cbn [length Nat.eqb]. rewrite (py_index_ok _ _ _ P). cbn [bind].
  destruct (Nat.ltb 1 _).
  - rewrite cull_times. destruct (filter (kept W k i elevation) (t0 :: times)) as [|t1 ts] eqn:E; [reflexivity|].
    apply (rows_of_track W sa i elevation src (t1 :: ts) ltac:(discriminate) _ (fun rows => Ok (clip_rows W k rows))).
  - apply (rows_of_track W sa i elevation src (t0 :: times) ltac:(discriminate) _ (fun rows => Ok (clip_rows W k rows))).
Qed.
Lemma ground_masked_lemma : forall W sa times idx i elevation (k : mask (w_G W)) src, picks (sa_instruments sa) idx i ->
  clip_keeps (w_clip_order W) -> (forall t, In t times -> cull_sound W k i elevation src t) ->
  exists all rows, collect_ground_track W sa times idx elevation None src = Ok all
    /\ collect_ground_track W sa times idx elevation (Some k) src = Ok rows
    /\ Permutation rows (filter_some (map (cut_row k) all)).
Proof.
  intros W sa times idx i elevation k src P CK SO. exists (track_rows W sa i elevation src times).
  eexists. split; [eapply ground_none; eassumption|]. split; [eapply ground_masked; eassumption|].
  assert (F : filter_some (map (cut_row k) (track_rows W sa i elevation src (filter (kept W k i elevation) times))) = filter_some (map (cut_row k) (track_rows W sa i elevation src times))).
  { unfold track_rows. rewrite !map_map. apply filter_some_map_filter. intros t T N. unfold kept. apply andb_true_iff. apply (SO t T). intro M. apply N.
    unfold cut_row. replace (g_geom (grow_of W sa i elevation src t)) with (shown W src i elevation t); [now rewrite M|]. destruct (grow_of_spec W sa i elevation src t) as (_ & _ & _ & _ & Q). now symmetry. }
  destruct (Nat.ltb 1 (length times)).
  - rewrite <- F. destruct (filter (kept W k i elevation) times) as [|t ts]; [constructor|]. now apply clip_rows_perm.
  - destruct times as [|t ts]; [constructor|]. now apply clip_rows_perm.
Qed.

(** *** Point method *)
Lemma dissolve_covers {W : world} {X} (covers : w_G W -> X -> Prop) rows x : is_union covers (w_union W) ->
  ((exists r, In r (dissolve W rows) /\ covers (g_geom r) x) <-> exists r, In r rows /\ covers (g_geom r) x).
Proof.
  intro U. destruct rows as [|r0 rows]; cbn [dissolve]; [split; intros (r & [] & _)|]. split.
  - intros (r & [<-|[]] & C). cbn [g_geom] in C. apply U in C. destruct C as (g & I & C). apply in_map_iff in I. destruct I as (r & <- & I). eauto.
  - intros (r & I & C). eexists. split; [now left|]. cbn [g_geom]. apply U. exists (g_geom r). split; [now apply in_map|exact C].
Qed.
Lemma group_by_in {A} (key : A -> Z) l x : In x l <-> exists g, In g (group_by key l) /\ In x g.
Proof.
  pose proof (group_by_partition key l) as P. split.
  - intro I. apply (Permutation_in _ (Permutation_sym P)) in I. apply in_concat in I. exact I.
  - intro I. apply (Permutation_in _ P). apply in_concat. exact I.
Qed.
Lemma dissolve_length W rows : (length (dissolve W rows) <= 1)%nat /\ (rows <> [] -> length (dissolve W rows) = 1%nat).
Proof. destruct rows; cbn; split; auto; congruence. Qed.
Lemma point_covers_lemma : forall W X (covers : w_G W -> X -> Prop) sa times idx elevation m src period d track, is_union covers (w_union W) ->
  collect_ground_track W sa times idx elevation m src = Ok track ->
  exists rows, compute_ground_track W sa times idx elevation m src MPoint period d = Ok rows
    /\ (forall x, (exists r, In r rows /\ covers (g_geom r) x) <-> exists r, In r track /\ g_valid r = true /\ covers (g_geom r) x)
    /\ (d = true -> (length rows <= 1)%nat).
Proof.
  intros W X covers sa times idx elevation m src period d track U E. cbn. unfold point_track. rewrite E. cbn [bind]. eexists. split; [reflexivity|].
  set (per := flat_map _ _). assert (K : forall x, (exists r, In r per /\ covers (g_geom r) x) <-> exists r, In r track /\ g_valid r = true /\ covers (g_geom r) x).
  { intro x. unfold per. split.
    - intros (r & I & C). apply in_flat_map in I. destruct I as (g & G & I). destruct (proj1 (dissolve_covers covers g x U)) as (r' & I' & C'); [eauto|].
      assert (J : In r' (filter g_valid track)) by (apply (group_by_in (fun r => (g_time r - hd 0 times) / period)); eauto). apply filter_In in J. exists r'. tauto.
    - intros (r & I & V & C). assert (J : In r (filter g_valid track)) by (apply filter_In; auto). apply (group_by_in (fun r => (g_time r - hd 0 times) / period)) in J. destruct J as (g & G & J).
      destruct (proj2 (dissolve_covers covers g x U)) as (r' & I' & C'); [eauto|]. exists r'. split; [|exact C']. apply in_flat_map. eauto. }
  split.
  - intro x. destruct d; [rewrite (dissolve_covers covers per x U)|]; apply K.
  - intros ->. apply dissolve_length.
Qed.
Lemma point_orbits_lemma : forall W sa times idx elevation m src period track,
  collect_ground_track W sa times idx elevation m src = Ok track -> 0 < period ->
  (forall r s, In r track -> In s track -> same_orbit (hd 0 times) period (g_time r) (g_time s)) ->
  exists rows, compute_ground_track W sa times idx elevation m src MPoint period false = Ok rows /\ (length rows <= 1)%nat.
Proof.
  intros W sa times idx elevation m src period track E P SO. cbn. unfold point_track. rewrite E. cbn [bind]. eexists. split; [reflexivity|].
  set (key := fun r : grow (w_G W) => (g_time r - hd 0 times) / period). unfold group_by.
  assert (K : forall l : list (grow (w_G W)), (forall r s, In r l -> In s l -> key r = key s) -> (length (group_keys key l) <= 1)%nat).
  { intros l H. pose proof (sorted_lt_nodup _ (group_keys_sorted key l)) as ND. destruct (group_keys key l) as [|a [|b ks]] eqn:Q; cbn; [lia|lia|]. exfalso.
    assert (A1 : In a (group_keys key l)) by (rewrite Q; now left). assert (B1 : In b (group_keys key l)) by (rewrite Q; right; now left).
    apply group_keys_in in A1, B1. destruct A1 as (x & X1 & <-), B1 as (y & Y1 & <-). inversion ND as [|? ? N _]; subst. apply N. left. now apply H. }
  assert (K2 : (length (group_keys key (filter g_valid track)) <= 1)%nat).
  { apply K. intros r s R1 S1. apply filter_In in R1, S1. unfold key. apply same_orbit_iff; [exact P|]. apply SO; tauto. }
  rewrite flat_map_map. destruct (group_keys key (filter g_valid track)) as [|a [|b ks]]; cbn in *; [lia| |lia]. rewrite app_nil_r. apply dissolve_length.
Qed.
