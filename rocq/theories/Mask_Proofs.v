(** Proofs about the mask argument of the track functions. *)
From Coq Require Import String Reals ZArith List Bool Lra Lia Sorting.Permutation.
From Verif Require Import Base BaseFacts RBase RFacts RTrigFacts Tle_Model Instr_Model Instr_Spec Geom_Model Poly_Model Poly_Spec Poly_Proofs Track_Model Track_Spec Track_Proofs Track_Proofs2 Track_Proofs3 Mask_Model Mask_Spec.
Import ListNotations.
Local Open Scope R_scope.

Section Proofs.
Variables (W : world) (S : Type) (O : geo_ops (w_G W) S) (on : S -> R -> R -> Prop) (foot : w_G W -> R -> R -> Prop).
Hypothesis L : geometry_laws O on foot.
Hypothesis CK : clip_keeps (w_clip_order W).

Lemma bool_iff (a b : bool) : (a = true <-> b = true) -> a = b.
Proof. destruct a, b; intros [H K]; auto; symmetry; auto. Qed.
Lemma area_on m x y : on (area_of W S O m) x y <-> in_mask on m x y.
Proof. destruct m; cbn; [reflexivity| |]; apply (l_union _ _ _ L). Qed.
Lemma rows_on m x y : (exists g, In g (rows_of S m) /\ on g x y) <-> in_mask on m x y.
Proof. destruct m as [g|l|l]; cbn; [|reflexivity|reflexivity]. split; [intros (h & [<-|[]] & H); exact H|eauto]. Qed.
Lemma rows_meet m f : existsb (fun g => meets O g f) (rows_of S m) = true <-> exists x y, in_mask on m x y /\ foot f x y.
Proof.
  rewrite existsb_exists. split.
  - intros (g & I & M). apply (l_meets _ _ _ L) in M. destruct M as (x & y & A & B). exists x, y. split; [|exact B]. apply rows_on. eauto.
  - intros (x & y & A & B). apply rows_on in A. destruct A as (g & I & A). exists g. split; [exact I|]. apply (l_meets _ _ _ L). eauto.
Qed.
Lemma buffered_some m : some_rows m -> exists b, buffered_of W S O m = Ok b /\ forall x y, on b x y -> in_mask on m x y.
Proof.
  destruct m as [g|[|g l]|[|g l]]; cbn; intro H; try congruence.
  - exists g. auto.
  - exists (union O (g :: l)). split; [reflexivity|]. intros x y. apply (l_union _ _ _ L).
  - exists g. split; [reflexivity|]. intros x y A. exists g. auto.
Qed.
Lemma buffered_one m : one_piece m -> exists b, buffered_of W S O m = Ok b /\ forall x y, on b x y <-> in_mask on m x y.
Proof.
  destruct m as [g|[|g l]|l]; cbn; intro H; try congruence.
  - exists g. split; [reflexivity|reflexivity].
  - exists (union O (g :: l)). split; [reflexivity|]. intros x y. apply (l_union _ _ _ L).
  - destruct H as (g & ->). exists g. split; [reflexivity|]. intros x y. split; [intro A; exists g; split; [now left|exact A]|intros (h & [<-|[]] & A); exact A].
Qed.
Lemma one_some (m : mask_arg S) : one_piece m -> some_rows m.
Proof. destruct m; cbn; auto. intros (g & ->). discriminate. Qed.
Lemma kept_more m1 m2 b1 b2 i elevation t : (forall x y, in_mask on m1 x y -> in_mask on m2 x y) -> (forall x y, on b1 x y -> on b2 x y) ->
  kept W (mask_of W S O b1 m1) i elevation t = true -> kept W (mask_of W S O b2 m2) i elevation t = true.
Proof.
  intros A B. unfold kept. cbn [mask_of m_buffered m_meets]. rewrite !andb_true_iff. intros [K M]. split.
  - eapply (l_contains_more _ _ _ L); [|exact K]. apply (l_buffer _ _ _ L), B.
  - apply rows_meet in M. destruct M as (x & y & M & F). apply rows_meet. exists x, y. auto.
Qed.
Lemma in_some {A} (l : list (option A)) x : In x (filter_some l) <-> In (Some x) l.
Proof.
  induction l as [|[y|] l IH]; cbn; [reflexivity| |].
  - rewrite IH. split; (intros [E|E]; [left; congruence|now right]).
  - rewrite IH. split; [now right|intros [E|E]; [discriminate|exact E]].
Qed.
Lemma cut_same m1 m2 f : (forall x y, in_mask on m1 x y <-> in_mask on m2 x y) ->
  match cut O (area_of W S O m1) f, cut O (area_of W S O m2) f with
  | Some c, Some d => forall x y, foot c x y <-> foot d x y
  | None, None => True
  | _, _ => False
  end.
Proof.
  intro A. assert (E : forall x y, on (area_of W S O m1) x y <-> on (area_of W S O m2) x y) by (intros; rewrite !area_on; apply A).
  destruct (cut O (area_of W S O m1) f) as [c|] eqn:C, (cut O (area_of W S O m2) f) as [d|] eqn:D; auto.
  - intros x y. rewrite (l_cut _ _ _ L _ _ _ C), (l_cut _ _ _ L _ _ _ D), E. reflexivity.
  - apply (l_cut_none _ _ _ L) in D. assert (X : cut O (area_of W S O m1) f = None) by (apply (l_cut_none _ _ _ L); intros (x & y & P & Q); apply D; exists x, y; rewrite <- E; auto). congruence.
  - apply (l_cut_none _ _ _ L) in C. assert (X : cut O (area_of W S O m2) f = None) by (apply (l_cut_none _ _ _ L); intros (x & y & P & Q); apply C; exists x, y; rewrite E; auto). congruence.
Qed.
Definition cuts (k : mask (w_G W)) rows := filter_some (map (cut_row k) rows).
Lemma clip_perm k rows : Permutation (clip_rows W k rows) (cuts k rows).
Proof. unfold clip_rows, cuts, cut_row. apply CK. Qed.
Lemma cuts_same m1 m2 b1 b2 rows : (forall x y, in_mask on m1 x y <-> in_mask on m2 x y) ->
  Forall2 (same_row foot) (cuts (mask_of W S O b1 m1) rows) (cuts (mask_of W S O b2 m2) rows).
Proof.
  intro A. unfold cuts. induction rows as [|r rows IH]; cbn; [constructor|].
  set (l1 := filter_some (map (cut_row (mask_of W S O b1 m1)) rows)) in *. set (l2 := filter_some (map (cut_row (mask_of W S O b2 m2)) rows)) in *. unfold cut_row. cbn [mask_of m_cut].
  pose proof (cut_same m1 m2 (g_geom r) A) as C. destruct (cut O (area_of W S O m1) (g_geom r)) as [c|], (cut O (area_of W S O m2) (g_geom r)) as [d|]; try contradiction; [|exact IH].
  constructor; [|exact IH]. repeat (split; [reflexivity|]). exact C.
Qed.
Definition kept_times (k : mask (w_G W)) i elevation times := if Nat.ltb 1 (length times) then filter (kept W k i elevation) times else times.
Lemma ground_in_eq sa times idx i elevation m b src : picks (sa_instruments sa) idx i -> buffered_of W S O m = Ok b ->
  exists rows b', ground_track_in W S O sa times idx elevation m src = Ok rows
    /\ (Nat.ltb 1 (length times) = true -> b' = b)
    /\ Permutation rows (cuts (mask_of W S O b' m) (track_rows W sa i elevation src (kept_times (mask_of W S O b' m) i elevation times))).
Proof.
  intros P B. unfold ground_track_in, kept_times. destruct times as [|t0 times]; [exists [], b; split; [reflexivity|]; split; [reflexivity|constructor]|].
  cbn [length Nat.eqb]. rewrite (py_index_ok _ _ _ P). cbn [bind]. destruct (Nat.ltb 1 _) eqn:LT.
  - rewrite B. cbn [bind]. rewrite (ground_masked W sa _ idx i) by exact P. cbn [length]. rewrite LT. eexists _, b. split; [reflexivity|]. split; [reflexivity|].
    destruct (filter _ _); [constructor|apply clip_perm].
  - cbn [bind]. rewrite (ground_masked W sa _ idx i) by exact P. cbn [length]. rewrite LT. eexists _, (area_of W S O m). split; [reflexivity|]. split; [discriminate|apply clip_perm].
Qed.
Lemma filter_same {A} (f g : A -> bool) l : (forall x, f x = true <-> g x = true) -> filter f l = filter g l.
Proof. intro H. apply filter_ext. intro x. apply bool_iff, H. Qed.
Lemma kept_same m1 m2 b1 b2 i elevation times : (forall x y, in_mask on m1 x y <-> in_mask on m2 x y) ->
  (Nat.ltb 1 (length times) = true -> forall x y, on b1 x y <-> on b2 x y) ->
  kept_times (mask_of W S O b1 m1) i elevation times = kept_times (mask_of W S O b2 m2) i elevation times.
Proof.
  intros A B. unfold kept_times. destruct (Nat.ltb 1 _); [|reflexivity]. specialize (B eq_refl). apply filter_same. intro t.
  split; (apply kept_more; [intros; now apply A|intros; now apply B]).
Qed.
Lemma kept_incl m1 m2 b1 b2 i elevation times : (forall x y, in_mask on m1 x y <-> in_mask on m2 x y) ->
  (Nat.ltb 1 (length times) = true -> forall x y, on b1 x y -> on b2 x y) ->
  incl (kept_times (mask_of W S O b1 m1) i elevation times) (kept_times (mask_of W S O b2 m2) i elevation times).
Proof.
  intros A B. unfold kept_times. destruct (Nat.ltb 1 _); [|apply incl_refl]. specialize (B eq_refl). intros t T. apply filter_In in T. apply filter_In. destruct T as [T K].
  split; [exact T|]. revert K. apply kept_more; [intros; now apply A|exact B].
Qed.
Lemma same_area_ground : forall sa times idx i elevation src m1 m2, picks (sa_instruments sa) idx i -> one_piece m1 -> one_piece m2 ->
  (forall x y, in_mask on m1 x y <-> in_mask on m2 x y) ->
  same_rows (same_row foot) (ground_track_in W S O sa times idx elevation m1 src) (ground_track_in W S O sa times idx elevation m2 src).
Proof.
  intros sa times idx i elevation src m1 m2 P O1 O2 A. destruct (buffered_one m1 O1) as (b1 & B1 & C1), (buffered_one m2 O2) as (b2 & B2 & C2).
  destruct (ground_in_eq sa times idx i elevation m1 b1 src P B1) as (r1 & b1' & -> & D1 & E1). destruct (ground_in_eq sa times idx i elevation m2 b2 src P B2) as (r2 & b2' & -> & D2 & E2).
  cbn. rewrite <- (kept_same m1 m2 b1' b2' i elevation times) in E2.
  - destruct (Permutation_Forall2 (Permutation_sym E1) (cuts_same m1 m2 b1' b2' _ A)) as (k & K1 & K2). exists k. split; [|exact K2]. now rewrite E2.
  - exact A.
  - intro LT. rewrite (D1 LT), (D2 LT). intros. rewrite C1, C2. apply A.
Qed.
Lemma within_ground : forall sa times idx i elevation src m1 m2, picks (sa_instruments sa) idx i -> some_rows m1 -> one_piece m2 ->
  (forall x y, in_mask on m1 x y <-> in_mask on m2 x y) ->
  within_rows (same_row foot) (ground_track_in W S O sa times idx elevation m1 src) (ground_track_in W S O sa times idx elevation m2 src).
Proof.
  intros sa times idx i elevation src m1 m2 P O1 O2 A. destruct (buffered_some m1 O1) as (b1 & B1 & C1), (buffered_one m2 O2) as (b2 & B2 & C2).
  destruct (ground_in_eq sa times idx i elevation m1 b1 src P B1) as (r1 & b1' & -> & D1 & E1). destruct (ground_in_eq sa times idx i elevation m2 b2 src P B2) as (r2 & b2' & -> & D2 & E2).
  cbn. intros r I. assert (Q := kept_incl m1 m2 b1' b2' i elevation times A). rewrite E1 in I. unfold cuts in I. apply in_some in I. apply in_map_iff in I. destruct I as (r0 & CR & I).
  unfold track_rows in I. apply in_map_iff in I. destruct I as (t & <- & T). apply Q in T.
  2:{ intro LT. rewrite (D1 LT), (D2 LT). intros. apply C2, A, C1. assumption. }
  revert CR. unfold cut_row. cbn [mask_of m_cut]. pose proof (cut_same m1 m2 (g_geom (grow_of W sa i elevation src t)) A) as C.
  destruct (cut O (area_of W S O m1) _) as [c|]; [|discriminate]. destruct (cut O (area_of W S O m2) _) as [d|] eqn:D; [|contradiction]. intro X. injection X as <-.
  exists (mk_grow (g_time (grow_of W sa i elevation src t)) (g_sat (grow_of W sa i elevation src t)) (g_instr (grow_of W sa i elevation src t)) (g_valid (grow_of W sa i elevation src t)) d). split.
  - rewrite E2. unfold cuts. apply in_some. apply in_map_iff. exists (grow_of W sa i elevation src t). split; [|apply in_map; exact T]. unfold cut_row. cbn [mask_of m_cut]. now rewrite D.
  - repeat (split; [reflexivity|]). exact C.
Qed.

(** *** Pixels *)
Lemma pixels_in_eq sa times idx i p elevation m b : picks (sa_instruments sa) idx i -> in_pointed i = Some p -> pi_rect p = true -> buffered_of W S O m = Ok b ->
  exists rows b', ground_pixels_in W S O sa times idx elevation m = Ok rows
    /\ (Nat.ltb 1 (length times) = true -> b' = b)
    /\ Permutation rows (filter (fun r => intersects O (area_of W S O m) (px (p_geom r)) (py (p_geom r)))
         (map (prow_of W sa i p elevation) (grid p (kept_times (mask_of W S O b' m) i elevation times)))).
Proof.
  intros P Q RC B. unfold ground_pixels_in, kept_times. destruct times as [|t0 times]; [exists [], b; split; [reflexivity|]; split; [reflexivity|constructor]|].
  cbn [length Nat.eqb]. rewrite (py_index_ok _ _ _ P). cbn [bind]. rewrite Q, RC. cbn [negb]. destruct (Nat.ltb 1 _) eqn:LT.
  - rewrite B. cbn [bind]. unfold collect_ground_pixels. cbn [length Nat.eqb]. rewrite (py_index_ok _ _ _ P). cbn [bind]. rewrite Q, RC, LT. cbn [negb]. rewrite cull_times.
    destruct (filter (kept W (mask_of W S O b m) i elevation) (t0 :: times)) as [|t l] eqn:E.
    + eexists _, b. split; [reflexivity|]. split; [reflexivity|]. rewrite E. constructor.
    + rewrite pixel_rows_ok. cbn [bind]. eexists _, b. split; [reflexivity|]. split; [reflexivity|]. rewrite E, grid_map. unfold clip_points. apply CK.
  - cbn [bind]. unfold collect_ground_pixels. cbn [length Nat.eqb]. rewrite (py_index_ok _ _ _ P). cbn [bind]. rewrite Q, RC, LT. cbn [negb].
    rewrite pixel_rows_ok. cbn [bind]. eexists _, (area_of W S O m). split; [reflexivity|]. split; [discriminate|]. rewrite grid_map. unfold clip_points. apply CK.
Qed.
Lemma area_same m1 m2 x y : (forall x y, in_mask on m1 x y <-> in_mask on m2 x y) -> intersects O (area_of W S O m1) x y = intersects O (area_of W S O m2) x y.
Proof. intro A. apply bool_iff. rewrite !(l_intersects _ _ _ L), !area_on. apply A. Qed.
Lemma forall2_eq {A} (l : list A) : Forall2 eq l l.
Proof. induction l; constructor; auto. Qed.
Lemma same_area_pixels : forall sa times idx i elevation m1 m2, picks (sa_instruments sa) idx i -> one_piece m1 -> one_piece m2 ->
  (forall x y, in_mask on m1 x y <-> in_mask on m2 x y) ->
  same_rows eq (ground_pixels_in W S O sa times idx elevation m1) (ground_pixels_in W S O sa times idx elevation m2).
Proof.
  intros sa times idx i elevation m1 m2 P O1 O2 A. destruct (buffered_one m1 O1) as (b1 & B1 & C1), (buffered_one m2 O2) as (b2 & B2 & C2).
  destruct (in_pointed i) as [p|] eqn:Q; [destruct (pi_rect p) eqn:RC|].
  - destruct (pixels_in_eq sa times idx i p elevation m1 b1 P Q RC B1) as (r1 & b1' & -> & D1 & E1). destruct (pixels_in_eq sa times idx i p elevation m2 b2 P Q RC B2) as (r2 & b2' & -> & D2 & E2).
    cbn. exists r1. split; [|apply forall2_eq]. rewrite E1, E2. rewrite (kept_same m1 m2 b1' b2' i elevation times A).
    + apply Permutation_refl'. apply filter_ext. intro r. symmetry. apply area_same, A.
    + intro LT. rewrite (D1 LT), (D2 LT). intros. rewrite C1, C2. apply A.
  - unfold ground_pixels_in. destruct times; [cbn; exists []; split; constructor|]. cbn [length Nat.eqb]. rewrite (py_index_ok _ _ _ P). cbn [bind]. rewrite Q, RC. reflexivity.
  - unfold ground_pixels_in. destruct times; [cbn; exists []; split; constructor|]. cbn [length Nat.eqb]. rewrite (py_index_ok _ _ _ P). cbn [bind]. rewrite Q. reflexivity.
Qed.
Lemma grid_in p ts x : In x (grid p ts) <-> In (fst x) ts /\ In (snd x) (list_prod (seq 0 (pi_cross_pixels p)) (seq 0 (pi_along_pixels p))).
Proof. unfold grid. destruct x as [t ij]. apply in_prod_iff. Qed.
Lemma within_pixels : forall sa times idx i elevation m1 m2, picks (sa_instruments sa) idx i -> some_rows m1 -> one_piece m2 ->
  (forall x y, in_mask on m1 x y <-> in_mask on m2 x y) ->
  within_rows eq (ground_pixels_in W S O sa times idx elevation m1) (ground_pixels_in W S O sa times idx elevation m2).
Proof.
  intros sa times idx i elevation m1 m2 P O1 O2 A. destruct (buffered_some m1 O1) as (b1 & B1 & C1), (buffered_one m2 O2) as (b2 & B2 & C2).
  destruct (in_pointed i) as [p|] eqn:Q; [destruct (pi_rect p) eqn:RC|].
  - destruct (pixels_in_eq sa times idx i p elevation m1 b1 P Q RC B1) as (r1 & b1' & -> & D1 & E1). destruct (pixels_in_eq sa times idx i p elevation m2 b2 P Q RC B2) as (r2 & b2' & -> & D2 & E2).
    cbn. intros r I. exists r. split; [|reflexivity]. rewrite E2. rewrite E1 in I. apply filter_In in I. destruct I as [I X]. apply filter_In. rewrite <- (area_same m1 m2) by exact A. split; [|exact X].
    apply in_map_iff in I. destruct I as (x & <- & I). apply in_map. apply grid_in in I. apply grid_in. split; [|apply I]. destruct I as [I _]. revert I. apply kept_incl; [exact A|].
    intro LT. rewrite (D1 LT), (D2 LT). intros. apply C2, A, C1. assumption.
  - unfold ground_pixels_in. destruct times; [cbn; intros ? []|]. cbn [length Nat.eqb]. rewrite (py_index_ok _ _ _ P). cbn [bind]. rewrite Q, RC. reflexivity.
  - unfold ground_pixels_in. destruct times; [cbn; intros ? []|]. cbn [length Nat.eqb]. rewrite (py_index_ok _ _ _ P). cbn [bind]. rewrite Q. reflexivity.
Qed.

(** *** Orbit tracks *)
Lemma orbit_in_eq sa times idx i elevation m c v f1 f2 f3 : picks (sa_instruments sa) idx i ->
  exists rows, orbit_track_in W S O sa times idx elevation m c v f1 f2 f3 = Ok rows
    /\ Permutation rows (filter (fun r => intersects O (area_of W S O m) (px (o_geom r)) (py (o_geom r)))
         (map (orow_of W sa i elevation c v f1 f2 f3) (times_in W (mask_of W S O (area_of W S O m) m) times))).
Proof.
  intro P. unfold orbit_track_in. set (k := mask_of W S O (area_of W S O m) m). destruct (times_in W k times) as [|t l] eqn:E.
  - exists []. split; [|constructor]. unfold collect_orbit_track. destruct times as [|t0 times]; [reflexivity|]. cbn [length Nat.eqb]. rewrite (py_index_ok _ _ _ P). cbn [bind].
    unfold orbit_track. replace (existsb _ _) with false; [reflexivity|]. symmetry. apply not_true_is_false. intro X.
    apply existsb_exists in X. destruct X as ([t s] & I & C). apply in_map_iff in I. destruct I as (t' & Q & I). injection Q as -> <-. cbn [snd] in C.
    assert (Y : In t (times_in W k (t0 :: times))) by (apply filter_In; auto). rewrite E in Y. destruct Y.
  - rewrite (collect_masked W sa times idx i) by (try exact P; rewrite E; discriminate). eexists. split; [reflexivity|]. rewrite E. unfold clip_points. apply CK.
Qed.
Lemma orbit_within : forall sa times idx i elevation m g c v f1 f2 f3, picks (sa_instruments sa) idx i ->
  (forall x y, in_mask on m x y <-> on g x y) ->
  within_rows eq (orbit_track_in W S O sa times idx elevation m c v f1 f2 f3) (orbit_track_in W S O sa times idx elevation (MGeometry g) c v f1 f2 f3).
Proof.
  intros sa times idx i elevation m g c v f1 f2 f3 P A. destruct (orbit_in_eq sa times idx i elevation m c v f1 f2 f3 P) as (r1 & -> & E1).
  destruct (orbit_in_eq sa times idx i elevation (MGeometry g) c v f1 f2 f3 P) as (r2 & -> & E2). cbn [within_rows]. intros r I. exists r. split; [|reflexivity]. rewrite E2. rewrite E1 in I.
  apply filter_In in I. destruct I as [I X]. apply filter_In. rewrite <- (area_same m (MGeometry g)) by exact A. split; [|exact X].
  apply in_map_iff in I. destruct I as (t & <- & I). apply in_map. apply filter_In in I. destruct I as [I K]. apply filter_In. split; [exact I|]. cbn [mask_of m_contains rows_of existsb] in *.
  apply existsb_exists in K. destruct K as (h & H & K). rewrite orb_false_r. eapply (l_contains_more _ _ _ L); [|exact K]. intros x y X'. apply A, rows_on. eauto.
Qed.
Lemma orbit_same : forall sa times idx i elevation m g c v f1 f2 f3, picks (sa_instruments sa) idx i ->
  (forall x y, in_mask on m x y <-> on g x y) ->
  (forall t, In t times -> let p := w_ssp W (w_state W t) in contains O g (px p) (py p) = true -> exists h, In h (rows_of S m) /\ contains O h (px p) (py p) = true) ->
  same_rows eq (orbit_track_in W S O sa times idx elevation m c v f1 f2 f3) (orbit_track_in W S O sa times idx elevation (MGeometry g) c v f1 f2 f3).
Proof.
  intros sa times idx i elevation m g c v f1 f2 f3 P A NB. destruct (orbit_in_eq sa times idx i elevation m c v f1 f2 f3 P) as (r1 & -> & E1).
  destruct (orbit_in_eq sa times idx i elevation (MGeometry g) c v f1 f2 f3 P) as (r2 & -> & E2). cbn [same_rows]. exists r1. split; [|apply forall2_eq]. rewrite E1, E2.
  rewrite <- (filter_ext _ _ (fun r => area_same m (MGeometry g) (px (o_geom r)) (py (o_geom r)) A)).
  apply Permutation_refl'. apply f_equal. apply f_equal. unfold times_in. symmetry. apply filter_ext_in. intros t T. cbn [mask_of m_contains rows_of existsb]. rewrite orb_false_r. apply bool_iff. rewrite existsb_exists. split; [|intro K; apply (NB t T K)].
  intros (h & H & K). eapply (l_contains_more _ _ _ L); [|exact K]. intros x y X'. apply A, rows_on. eauto.
Qed.

(** *** Masks without geometries *)
Lemma empty_ground : forall sa t times idx i elevation src m, picks (sa_instruments sa) idx i -> m = MFrame [] \/ m = MSeries [] ->
  ground_track_in W S O sa (t :: times) idx elevation m src = match times with [] => Ok [] | _ => Raise IndexError end.
Proof.
  intros sa t times idx i elevation src m P E. unfold ground_track_in. cbn [length Nat.eqb]. rewrite (py_index_ok _ _ _ P). cbn [bind]. destruct times as [|u times].
  - cbn [length Nat.ltb Nat.leb bind]. rewrite (ground_masked W sa _ idx i) by exact P. cbn [length Nat.ltb Nat.leb]. f_equal.
    apply Permutation_nil. symmetry. rewrite clip_perm. unfold cuts, track_rows. cbn [map]. unfold cut_row. cbn [mask_of m_cut].
    destruct (cut O (area_of W S O m) _) as [c|] eqn:C; [|constructor]. exfalso. assert (X : cut O (area_of W S O m) (g_geom (grow_of W sa i elevation src t)) = None).
    { apply (l_cut_none _ _ _ L). intros (x & y & A & _). apply area_on in A. destruct E as [-> | ->]; destruct A as (g & [] & _). }
    congruence.
  - cbn [length]. replace (Nat.ltb 1 _) with true by reflexivity. destruct E as [-> | ->]; reflexivity.
Qed.
Lemma empty_orbit : forall sa times idx i elevation c v f1 f2 f3 m, picks (sa_instruments sa) idx i -> m = MFrame [] \/ m = MSeries [] ->
  orbit_track_in W S O sa times idx elevation m c v f1 f2 f3 = Ok [].
Proof.
  intros sa times idx i elevation c v f1 f2 f3 m P E. destruct (orbit_in_eq sa times idx i elevation m c v f1 f2 f3 P) as (r & -> & E1). f_equal. apply Permutation_nil. symmetry. rewrite E1.
  assert (N : times_in W (mask_of W S O (area_of W S O m) m) times = []).
  { clear - E. unfold times_in. destruct E as [-> | ->]; cbn; (induction times as [|t times IH]; [reflexivity|exact IH]). }
  rewrite N. constructor.
Qed.
End Proofs.
