(** Proofs about polygons. *)
From Coq Require Import Reals ZArith List Bool Lra Lia Psatz Sorting.Permutation Sorting.Sorted.
From Verif Require Import Base BaseFacts RBase RFacts Anomaly_Proofs Poly_Model Poly_Spec.
Import ListNotations.
Open Scope R_scope.

Lemma Forall2_map_r {A B} (R : A -> B -> Prop) (f : A -> B) l : (forall x, In x l -> R x (f x)) -> Forall2 R l (map f l).
Proof. induction l as [|x l IH]; cbn; constructor; [apply H; now left|apply IH; intros; apply H; now right]. Qed.

(** *** Projection *)
Lemma project_lemma : forall s e,
  same_parts (same_rings (fun c d => cx d = cx c /\ cy d = cy c /\ cz d = Some e)) s (project_polygon_to_elevation s e).
Proof.
  assert (K : forall e p, same_rings (fun c d => cx d = cx c /\ cy d = cy c /\ cz d = Some e) p (project_poly e p)).
  { intros e p. split; cbn; apply Forall2_map_r; [intros; repeat split|]. intros l _. apply Forall2_map_r. intros; repeat split. }
  intros [p|l] e; cbn; [apply K|]. apply Forall2_map_r. intros; apply K.
Qed.
Lemma project_poly_again e1 e2 p : project_poly e1 (project_poly e2 p) = project_poly e1 p.
Proof. destruct p as [x i]. unfold project_poly. cbn. f_equal; rewrite map_map; [reflexivity|]. apply map_ext. intro l. rewrite map_map. reflexivity. Qed.
Lemma project_again : forall s e1 e2, project_polygon_to_elevation (project_polygon_to_elevation s e2) e1 = project_polygon_to_elevation s e1.
Proof. intros [p|l] e1 e2; cbn; [now rewrite project_poly_again|]. f_equal. rewrite map_map. apply map_ext. intro p. apply project_poly_again. Qed.

(** *** Places on the globe *)
Lemma globe_turn c k z : same_place c (mk_coord (cx c + 360 * IZR k) (cy c) z).
Proof.
  unfold same_place, on_globe. cbn. assert (E : radians (cx c + 360 * IZR k) = radians (cx c) + 2 * IZR k * PI) by (unfold radians; field).
  rewrite E, cos_period_Z, sin_period_Z. reflexivity.
Qed.
Lemma globe_flat c z : same_place c (mk_coord (cx c) (cy c) z). Proof. reflexivity. Qed.
Lemma globe_north c s z : s = 180 \/ s = -180 -> same_place c (mk_coord (cx c + s) (180 - cy c) z).
Proof.
  intro S. unfold same_place, on_globe. cbn. assert (E : radians (180 - cy c) = PI - radians (cy c)) by (unfold radians; field).
  assert (A : cos (radians (cx c + s)) = - cos (radians (cx c)) /\ sin (radians (cx c + s)) = - sin (radians (cx c))).
  { destruct S as [-> | ->].
    - assert (radians (cx c + 180) = radians (cx c) + PI) as -> by (unfold radians; field). split; [apply neg_cos|apply neg_sin].
    - assert (radians (cx c + -180) = radians (cx c) - PI) as -> by (unfold radians; field). rewrite cos_minus, sin_minus, cos_PI, sin_PI. split; ring. }
  destruct A as [-> ->]. rewrite E, cos_minus, sin_minus, cos_PI, sin_PI. f_equal; [f_equal|]; ring.
Qed.
Lemma globe_south c s z : s = 180 \/ s = -180 -> same_place c (mk_coord (cx c + s) (-180 - cy c) z).
Proof.
  intro S. unfold same_place. rewrite (globe_north c s z S). unfold on_globe. cbn.
  assert (radians (-180 - cy c) = radians (180 - cy c) + 2 * IZR (-1) * PI) as -> by (unfold radians; cbn; field).
  rewrite cos_period_Z, sin_period_Z. reflexivity.
Qed.

(** *** Antimeridian wrapping *)
Lemma fb_spec (f : coord -> bool) (P : coord -> Prop) l : (forall c, f c = true <-> P c) -> (forallb f l = true <-> forall c, In c l -> P c).
Proof. intro H. rewrite forallb_forall. split; intros K c C; apply H, K, C. Qed.
Lemma fb_false (f : coord -> bool) (P : coord -> Prop) l : (forall c, f c = true <-> P c) -> (forallb f l = false <-> exists c, In c l /\ ~ P c).
Proof.
  intro H. split.
  - intro E. induction l as [|x l IH]; cbn in *; [discriminate|]. destruct (f x) eqn:F.
    + destruct (IH E) as (c & C & N). exists c. auto.
    + exists x. split; [now left|]. intro P1. apply H in P1. congruence.
  - intros (c & C & N). destruct (forallb f l) eqn:E; [|reflexivity]. exact (False_ind _ (N (proj1 (fb_spec f P l H) E c C))).
Qed.
Lemma inside_dec l : (forall c, In c l -> -180 <= cx c <= 180) \/ exists c, In c l /\ (cx c < -180 \/ 180 < cx c).
Proof.
  destruct (forallb (fun c => Rleb (-180) (cx c) && Rleb (cx c) 180) l) eqn:E.
  - left. refine (proj1 (fb_spec _ (fun c => -180 <= cx c <= 180) l _) E). intro c. rewrite andb_true_iff, !Rleb_spec. tauto.
  - right. assert (T : forall c, Rleb (-180) (cx c) && Rleb (cx c) 180 = true <-> -180 <= cx c <= 180) by (intro c; rewrite andb_true_iff, !Rleb_spec; tauto).
    pose proof (proj1 (fb_false _ _ l T) E) as X. clear E. rename X into E.
    destruct E as (c & C & N). exists c. split; [exact C|]. destruct (Rlt_le_dec (cx c) (-180)); [now left|]. destruct (Rlt_le_dec 180 (cx c)); [now right|]. exfalso. apply N. lra.
Qed.
Lemma in_test l : (forall c, In c l -> -180 <= cx c <= 180) -> forallb (fun c => Rleb (-180) (cx c) && Rleb (cx c) 180) l = true.
Proof. intro H. apply (fb_spec _ (fun c => -180 <= cx c <= 180)); [intro c; rewrite andb_true_iff, !Rleb_spec; tauto|exact H]. Qed.
Lemma out_test l c : In c l -> (cx c < -180 \/ 180 < cx c) -> forallb (fun c => Rleb (-180) (cx c) && Rleb (cx c) 180) l = false.
Proof.
  intros C N. apply (fb_false _ (fun c => -180 <= cx c <= 180)); [intro; rewrite andb_true_iff, !Rleb_spec; tauto|]. exists c. split; [exact C|lra].
Qed.
Lemma le_test a l : forallb (fun c => Rleb (cx c) a) l = true <-> forall c, In c l -> cx c <= a.
Proof. apply fb_spec. intro c. apply Rleb_spec. Qed.
Lemma ge_test a l : forallb (fun c => Rleb a (cx c)) l = true <-> forall c, In c l -> a <= cx c.
Proof. apply fb_spec. intro c. apply Rleb_spec. Qed.
Lemma not_true b : (b = true -> False) -> b = false. Proof. destruct b; [intro H; exfalso; now apply H|reflexivity]. Qed.

Lemma move_rings k p : same_rings same_place p (move_poly (360 * IZR k) p).
Proof.
  split; cbn; apply Forall2_map_r; [intros c _; apply globe_turn|]. intros l _. apply Forall2_map_r. intros c _. apply globe_turn.
Qed.
Lemma move_lon k a b p : lon_within a b p -> lon_within (a + k) (b + k) (move_poly k p).
Proof. intros H c C. cbn in C. apply in_map_iff in C. destruct C as (d & <- & D). cbn. specialize (H d D). lra. Qed.
Lemma same_rings_refl p : same_rings same_place p p.
Proof. split; [|]; [induction (p_ext p) as [|x l IH]; constructor; [reflexivity|exact IH]|].
  induction (p_ints p) as [|x l IH]; constructor; [|exact IH]. clear. induction x as [|c x IH]; constructor; [reflexivity|exact IH]. Qed.

Lemma wrap_antimeridian_inside : forall iv p, lon_within (-180) 180 p -> wrap_antimeridian iv (SPoly p) = Ok (SPoly p).
Proof. intros iv p H. cbn. unfold wrap_antimeridian_poly. now rewrite in_test. Qed.
Lemma wrap_antimeridian_outside : forall iv p, move_invariant iv -> iv (SPoly p) = true ->
  lon_within (-540) (-180) p \/ lon_within 180 540 p ->
  exists q, wrap_antimeridian iv (SPoly p) = Ok (SPoly q) /\ same_rings same_place p q /\ lon_within (-180) 180 q.
Proof.
  intros iv p MI V H. cbn. unfold wrap_antimeridian_poly. destruct (inside_dec (p_ext p)) as [I|(c & C & N)].
  { rewrite in_test by exact I. exists p. split; [reflexivity|]. split; [apply same_rings_refl|exact I]. }
  rewrite (out_test _ c C N). destruct H as [H|H].
  - replace (forallb (fun c0 => Rleb (cx c0) (-180)) (p_ext p)) with true by (symmetry; apply le_test; intros d D; specialize (H d D); lra).
    replace (forallb (fun c0 => Rleb 180 (cx c0)) (p_ext p)) with false by (symmetry; apply not_true; intro G; rewrite ge_test in G; specialize (G c C); specialize (H c C); lra).
    rewrite MI, V. exists (move_poly 360 p). split; [reflexivity|]. split.
    + replace 360 with (360 * IZR 1) by ring. apply move_rings.
    + apply (move_lon 360) in H. intros d D. specialize (H d D). lra.
  - replace (forallb (fun c0 => Rleb 180 (cx c0)) (p_ext p)) with true by (symmetry; apply ge_test; intros d D; specialize (H d D); lra).
    rewrite MI, V. exists (move_poly (-360) p). split; [reflexivity|]. split.
    + replace (-360) with (360 * IZR (-1)) by ring. apply move_rings.
    + apply (move_lon (-360)) in H. intros d D. specialize (H d D). lra.
Qed.
Lemma wrap_antimeridian_straddles : forall iv p c d, In c (p_ext p) -> In d (p_ext p) ->
  (exists e, In e (p_ext p) /\ (cx e < -180 \/ 180 < cx e)) -> -180 < cx c -> cx d < 180 ->
  wrap_antimeridian iv (SPoly p) = Raise UnboundLocalError.
Proof.
  intros iv p c d C D (e & E & N) H1 H2. cbn. unfold wrap_antimeridian_poly. rewrite (out_test _ e E N).
  replace (forallb (fun c0 => Rleb (cx c0) (-180)) (p_ext p)) with false by (symmetry; apply not_true; intro G; rewrite le_test in G; specialize (G c C); lra).
  replace (forallb (fun c0 => Rleb 180 (cx c0)) (p_ext p)) with false by (symmetry; apply not_true; intro G; rewrite ge_test in G; specialize (G d D); lra).
  reflexivity.
Qed.
Lemma wrap_antimeridian_total : forall iv p, (exists s, wrap_antimeridian iv (SPoly p) = Ok s)
  <-> lon_within (-180) 180 p \/ (forall c, In c (p_ext p) -> cx c <= -180) \/ (forall c, In c (p_ext p) -> 180 <= cx c).
Proof.
  intros iv p. cbn. unfold wrap_antimeridian_poly. destruct (inside_dec (p_ext p)) as [I|(c & C & N)].
  { rewrite in_test by exact I. split; [intro; now left|]. intros _. eexists; reflexivity. }
  rewrite (out_test _ c C N). destruct (forallb (fun c0 => Rleb 180 (cx c0)) (p_ext p)) eqn:G.
  { rewrite ge_test in G. split; [intro; right; now right|]. intros _. destruct (iv _); eexists; reflexivity. }
  destruct (forallb (fun c0 => Rleb (cx c0) (-180)) (p_ext p)) eqn:L.
  { rewrite le_test in L. split; [intro; right; now left|]. intros _. destruct (iv _); eexists; reflexivity. }
  split; [intros (s & X); discriminate|]. intros [I|[I|I]].
  - exfalso. specialize (I c C). lra.
  - rewrite <- le_test in I. congruence.
  - rewrite <- ge_test in I. congruence.
Qed.

(** *** Pole wrapping *)
Lemma wrap_north_inside : forall iv p, (forall c, In c (p_ext p) -> cy c <= 90) -> wrap_north iv (SPoly p) = Ok (SPoly p).
Proof.
  intros iv p H. cbn. unfold wrap_north_poly. replace (forallb (fun c => Rleb (cy c) 90) (p_ext p)) with true; [reflexivity|].
  symmetry. apply (fb_spec _ (fun c => cy c <= 90)); [intro; apply Rleb_spec|exact H].
Qed.
Lemma wrap_south_inside : forall iv p, (forall c, In c (p_ext p) -> -90 <= cy c) -> wrap_south iv (SPoly p) = Ok (SPoly p).
Proof.
  intros iv p H. cbn. unfold wrap_south_poly. replace (forallb (fun c => Rleb (-90) (cy c)) (p_ext p)) with true; [reflexivity|].
  symmetry. apply (fb_spec _ (fun c => -90 <= cy c)); [intro; apply Rleb_spec|exact H].
Qed.
Lemma north_coord_place s c : s = 180 \/ s = -180 -> same_place c (wrap_north_coord s c).
Proof. intro S. unfold wrap_north_coord. destruct (Rleb 90 (cy c)); [now apply globe_north|reflexivity]. Qed.
Lemma south_coord_place s c : s = 180 \/ s = -180 -> same_place c (wrap_south_coord s c).
Proof. intro S. unfold wrap_south_coord. destruct (Rleb (cy c) (-90)); [now apply globe_south|reflexivity]. Qed.
Lemma side_shift p : one_side p -> let s := if forallb (fun c => Rleb (cx c) 0) (p_ext p) then 180 else -180 in
  (s = 180 \/ s = -180) /\ forall c, In c (p_ext p) -> -180 <= cx c <= 180 /\ -180 <= cx c + s <= 180.
Proof.
  intros O s. unfold s. destruct (forallb (fun c => Rleb (cx c) 0) (p_ext p)) eqn:E.
  - rewrite le_test in E. split; [now left|]. intros c C. specialize (E c C). destruct O as [O|O]; specialize (O c C); lra.
  - split; [now right|]. destruct O as [O|O].
    + exfalso. assert (F : forallb (fun c => Rleb (cx c) 0) (p_ext p) = true) by (apply le_test; intros d D; specialize (O d D); lra). congruence.
    + intros c C. specialize (O c C). lra.
Qed.
Lemma wrap_north_lemma : forall p, (exists c, In c (p_ext p) /\ 90 < cy c) -> exists w,
  same_rings same_place p w /\ (lat_within (-90) 270 p -> lat_within (-90) 90 w) /\ (one_side p -> lon_within (-180) 180 w)
  /\ forall iv, wrap_north iv (SPoly p) = Ok (SPoly (if iv (SPoly w) then w else p)).
Proof.
  intros p (c0 & C0 & B0). cbn. unfold wrap_north_poly.
  replace (forallb (fun c => Rleb (cy c) 90) (p_ext p)) with false.
  2:{ symmetry. apply (fb_false _ (fun c => cy c <= 90)); [intro; apply Rleb_spec|]. exists c0. split; [exact C0|lra]. }
  set (s := if forallb (fun c => Rleb (cx c) 0) (p_ext p) then 180 else -180).
  assert (S : s = 180 \/ s = -180) by (unfold s; destruct (forallb _ _); auto).
  exists (mk_poly (map (wrap_north_coord s) (p_ext p)) (map (map (wrap_north_coord s)) (p_ints p))). split; [|split; [|split]].
  - split; cbn; apply Forall2_map_r; [intros c _; now apply north_coord_place|]. intros l _. apply Forall2_map_r. intros c _. now apply north_coord_place.
  - intros H c C. cbn in C. apply in_map_iff in C. destruct C as (d & <- & D). specialize (H d D). unfold wrap_north_coord.
    destruct (Rleb 90 (cy d)) eqn:B; [apply Rleb_spec in B|apply Rleb_false in B]; cbn; lra.
  - intros O c C. cbn in C. apply in_map_iff in C. destruct C as (d & <- & D). destruct (side_shift p O) as [_ K]. specialize (K d D). fold s in K.
    unfold wrap_north_coord. destruct (Rleb 90 (cy d)); cbn; tauto.
  - intro iv. destruct (iv _); reflexivity.
Qed.
Lemma wrap_south_lemma : forall p, p_ints p = [] -> (exists c, In c (p_ext p) /\ cy c < -90) -> exists w,
  same_rings same_place p w /\ (lat_within (-270) 90 p -> lat_within (-90) 90 w) /\ (one_side p -> lon_within (-180) 180 w)
  /\ forall iv, wrap_south iv (SPoly p) = Ok (SPoly (if iv (SPoly w) then w else p)).
Proof.
  intros p PI0 (c0 & C0 & B0). cbn. unfold wrap_south_poly.
  replace (forallb (fun c => Rleb (-90) (cy c)) (p_ext p)) with false.
  2:{ symmetry. apply (fb_false _ (fun c => -90 <= cy c)); [intro; apply Rleb_spec|]. exists c0. split; [exact C0|lra]. }
  rewrite PI0. cbn [existsb]. set (s := if forallb (fun c => Rleb (cx c) 0) (p_ext p) then 180 else -180).
  assert (S : s = 180 \/ s = -180) by (unfold s; destruct (forallb _ _); auto).
  exists (mk_poly (map (wrap_south_coord s) (p_ext p)) []). split; [|split; [|split]].
  - split; cbn; [apply Forall2_map_r; intros c _; now apply south_coord_place|]. rewrite PI0. constructor.
  - intros H c C. cbn in C. apply in_map_iff in C. destruct C as (d & <- & D). specialize (H d D). unfold wrap_south_coord.
    destruct (Rleb (cy d) (-90)) eqn:B; [apply Rleb_spec in B|apply Rleb_false in B]; cbn; lra.
  - intros O c C. cbn in C. apply in_map_iff in C. destruct C as (d & <- & D). destruct (side_shift p O) as [_ K]. specialize (K d D). fold s in K.
    unfold wrap_south_coord. destruct (Rleb (cy d) (-90)); cbn; tauto.
  - intro iv. destruct (iv _); reflexivity.
Qed.
Lemma wrap_south_hole : forall iv p r, In r (p_ints p) -> r <> [] -> (exists c, In c (p_ext p) /\ cy c < -90) -> wrap_south iv (SPoly p) = Raise ValueError.
Proof.
  intros iv p r I N (c0 & C0 & B0). cbn. unfold wrap_south_poly.
  replace (forallb (fun c => Rleb (-90) (cy c)) (p_ext p)) with false.
  2:{ symmetry. apply (fb_false _ (fun c => -90 <= cy c)); [intro; apply Rleb_spec|]. exists c0. split; [exact C0|lra]. }
  replace (existsb (fun i => negb (Nat.eqb (length i) 0)) (p_ints p)) with true; [reflexivity|]. symmetry. apply existsb_exists. exists r. split; [exact I|].
  destruct r; [congruence|reflexivity].
Qed.
Lemma wrap_north_total : forall iv s, exists t, wrap_north iv s = Ok t.
Proof.
  assert (K : forall iv p, exists t, wrap_north_poly iv p = Ok t).
  { intros. unfold wrap_north_poly. destruct (forallb _ _); [eexists; reflexivity|]. destruct (iv _); eexists; reflexivity. }
  intros iv [p|l]; cbn; [apply K|]. induction l as [|p l IH]; cbn; [eexists; reflexivity|]. destruct (K iv p) as [t ->]. cbn.
  destruct IH as [t2 IH]. destruct (mapM (wrap_north_poly iv) l); cbn in *; [eexists; reflexivity|discriminate].
Qed.

(** *** Unwrapping *)
Lemma consecutive_cons {A} (x : A) l a b : consecutive (x :: l) a b -> (a = x /\ exists r, l = b :: r) \/ consecutive l a b.
Proof.
  intros (l1 & l2 & E). destruct l1 as [|y l1]; cbn in E; injection E as -> ->.
  - left. split; [reflexivity|]. now exists l2.
  - right. now exists l1, l2.
Qed.
Lemma consecutive_skip {A} (x : A) l a b : consecutive l a b -> consecutive (x :: l) a b.
Proof. intros (l1 & l2 & ->). now exists (x :: l1), l2. Qed.
Lemma length_cumsum acc l : length (cumsum acc l) = length l.
Proof. revert acc. induction l; cbn; congruence. Qed.
Lemma length_turns p l : length (turns p l) = length l.
Proof. revert p. induction l; cbn; congruence. Qed.
Definition uw (prev : R) (acc : Z) (lon : list R) : list R := map (fun p => fst p - 360 * IZR (snd p)) (combine lon (cumsum acc (turns prev lon))).
Lemma uw_steps : forall lon prev acc a b, consecutive ((prev - 360 * IZR acc) :: uw prev acc lon) a b -> Rabs (b - a) <= 180.
Proof.
  induction lon as [|x lon IH]; intros prev acc a b C.
  - apply consecutive_cons in C. destruct C as [[_ [r E]]|([|? ?] & l2 & E)]; cbn in *; discriminate.
  - apply consecutive_cons in C. cbn [uw turns cumsum combine map fst snd] in C. destruct C as [[-> [r E]]|C].
    + injection E as <- _. rewrite plus_IZR. pose proof (rhe_bounds ((x - prev) / 360)) as B. apply Rabs_le. lra.
    + eapply IH. exact C.
Qed.
Lemma unwrap_lemma : forall lon,
  length (unwrap lon) = length lon
  /\ (forall i x y, nth_error lon i = Some x -> nth_error (unwrap lon) i = Some y -> exists k : Z, y = x + 360 * IZR k)
  /\ (forall x r, lon = x :: r -> exists r', unwrap lon = x :: r')
  /\ (forall a b, consecutive (unwrap lon) a b -> Rabs (b - a) <= 180).
Proof.
  intro lon. destruct lon as [|x0 lon].
  { split; [reflexivity|]. split; [intros [|i] x y H; discriminate|]. split; [intros; discriminate|].
    intros a b ([|? ?] & l2 & E); discriminate. }
  assert (LE : length (shifts (x0 :: lon)) = length (x0 :: lon)) by (cbn; now rewrite length_cumsum, length_turns).
  split; [|split; [|split]].
  - unfold unwrap. rewrite map_length, combine_length, LE. apply Nat.min_id.
  - intros i x y X Y. unfold unwrap in Y. rewrite nth_error_map in Y. destruct (nth_error (combine (x0 :: lon) (shifts (x0 :: lon))) i) as [[u k]|] eqn:E; cbn in Y; [|discriminate].
    injection Y as <-. exists (- k)%Z. assert (u = x).
    { clear -E X. revert i X E. generalize (x0 :: lon) (shifts (x0 :: lon)). intros l m. revert m.
      induction l as [|a l IH]; intros m i X E; [destruct i; discriminate|]. destruct m as [|b m]; [destruct i; discriminate|].
      destruct i as [|i]; cbn in *; [congruence|]. eapply IH; eassumption. }
    subst. rewrite opp_IZR. ring.
  - intros x r E. injection E as <- <-. cbn. eexists. f_equal. ring.
  - intros a b C. cbn [unwrap shifts combine map fst snd] in C. apply (uw_steps lon x0 0 a b). exact C.
Qed.
Lemma uw_id : forall lon prev acc, (forall a b, consecutive (prev :: lon) a b -> Rabs (b - a) < 180) -> uw prev acc lon = map (fun x => x - 360 * IZR acc) lon.
Proof.
  induction lon as [|x lon IH]; intros prev acc H; [reflexivity|]. unfold uw. cbn [turns cumsum combine map fst snd].
  assert (R0 : round_half_even ((x - prev) / 360) = 0%Z).
  { pose proof (rhe_bounds ((x - prev) / 360)) as B. assert (A : Rabs (x - prev) < 180) by (apply H; exists [], lon; reflexivity).
    apply Rabs_def2 in A. assert (-1 < IZR (round_half_even ((x - prev) / 360)) < 1) by lra. destruct H0 as [H1 H2].
    apply (lt_IZR (-1)) in H1. apply (lt_IZR _ 1) in H2. lia. }
  rewrite R0, Z.add_0_r. f_equal. apply IH. intros a b C. apply H. now apply consecutive_skip.
Qed.
Lemma unwrap_identity : forall lon, (forall a b, consecutive lon a b -> Rabs (b - a) < 180) -> unwrap lon = lon.
Proof.
  intros [|x lon] H; [reflexivity|]. cbn [unwrap shifts combine map fst snd]. unfold unwrap. cbn [shifts combine map fst snd]. fold (uw x 0 lon). rewrite uw_id by exact H. f_equal; [ring|].
  erewrite map_ext; [apply map_id|]. intro. cbn. ring.
Qed.

(** *** Ordinary polygons *)
Lemma steps_small_spec : forall lon prev, (forall a b, consecutive (prev :: lon) a b -> Rabs (b - a) < 180) -> steps_small prev lon = true.
Proof.
  induction lon as [|x lon IH]; intros prev H; [reflexivity|]. cbn. apply andb_true_iff. split.
  - apply Rltb_spec. apply H. now exists [], lon.
  - apply IH. intros a b C. apply H. now apply consecutive_skip.
Qed.
Lemma no_crossing_spec lon : (forall a b, consecutive lon a b -> Rabs (b - a) < 180) -> no_crossing lon = true.
Proof. destruct lon as [|x lon]; [reflexivity|]. apply steps_small_spec. Qed.
Section Ordinary.
Variables (iv : shape -> bool) (mv : shape -> list piece + shape) (cr : piece -> coord * coord -> bool) (pe : piece -> piece -> bool)
  (sp : piece -> coord * coord -> list piece) (so : list R -> bool) (ss : list (R * R) -> list (R * R)).
Lemma anti_ordinary p : ordinary p -> split_antimeridian_poly iv sp so ss p = Ok (SPoly p).
Proof. intros [_ H]. unfold split_antimeridian_poly. now rewrite no_crossing_spec. Qed.
Lemma south_ordinary p : ordinary p -> split_south_poly iv cr pe sp p = Ok (SPoly p).
Proof.
  intros [H _]. unfold split_south_poly. replace (forallb (fun c => Rleb (-90) (cy c)) (p_ext p)) with true; [reflexivity|]. symmetry.
  apply (fb_spec _ (fun c => -90 <= cy c)); [intro; apply Rleb_spec|]. intros c C. specialize (H c C). lra.
Qed.
Lemma north_ordinary p : ordinary p -> split_north_poly iv cr pe sp p = Ok (SPoly p).
Proof.
  intros [H _]. unfold split_north_poly. replace (forallb (fun c => Rleb (cy c) 90) (p_ext p)) with true; [reflexivity|]. symmetry.
  apply (fb_spec _ (fun c => cy c <= 90)); [intro; apply Rleb_spec|]. intros c C. specialize (H c C). lra.
Qed.
Lemma over_parts_id f s : (forall p, In p (geoms s) -> f p = Ok (SPoly p)) -> over_parts f s = Ok s.
Proof.
  destruct s as [p|l]; cbn; intro H; [apply H; now left|].
  assert (E : mapM f l = Ok (map SPoly l)).
  { induction l as [|p l IH]; cbn; [reflexivity|]. rewrite (H p (or_introl eq_refl)). cbn. rewrite IH; [reflexivity|]. intros q Q. apply H. now right. }
  rewrite E. cbn. do 2 f_equal. clear. induction l as [|p l IH]; cbn; [reflexivity|]. now rewrite IH.
Qed.
Lemma split_ordinary s : iv s = true -> (forall p, In p (geoms s) -> ordinary p) -> split_polygon iv mv cr pe sp so ss s = Ok s.
Proof.
  intros V H. unfold split_polygon, split_antimeridian, split_south, split_north.
  rewrite (over_parts_id _ s) by (intros; apply anti_ordinary, H; assumption). cbn [bind].
  rewrite (over_parts_id _ s) by (intros; apply south_ordinary, H; assumption). cbn [bind].
  rewrite (over_parts_id _ s) by (intros; apply north_ordinary, H; assumption). cbn [bind]. now rewrite V.
Qed.

(** *** Splitting at the antimeridian *)
Lemma convert_geoms l q : In q (geoms (convert_collection l)) <-> In q (polygons_of l).
Proof.
  assert (P : Permutation (geoms (convert_collection l)) (polygons_of l)).
  { unfold convert_collection. set (a := flat_map _ l). set (b := flat_map _ l).
    assert (E : geoms (match a ++ b with [p] => SPoly p | _ => SMulti (a ++ b) end) = a ++ b) by (destruct (a ++ b) as [|x [|y r]]; reflexivity).
    rewrite E. unfold a, b. clear. induction l as [|[[p|ps]|] l IH]; cbn; [constructor| | |exact IH].
    - constructor. exact IH.
    - rewrite Permutation_app_comm. rewrite <- app_assoc. apply Permutation_app_head. rewrite Permutation_app_comm. exact IH. }
  split; apply Permutation_in; [exact P|now symmetry].
Qed.
Lemma collection_lemma : forall l, Permutation (geoms (convert_collection l)) (polygons_of l).
Proof.
  intro l. unfold convert_collection. set (a := flat_map _ l). set (b := flat_map _ l).
  assert (E : geoms (match a ++ b with [p] => SPoly p | _ => SMulti (a ++ b) end) = a ++ b) by (destruct (a ++ b) as [|x [|y r]]; reflexivity).
  rewrite E. unfold a, b. clear. induction l as [|[[p|ps]|] l IH]; cbn; [constructor| | |exact IH].
  - constructor. exact IH.
  - rewrite Permutation_app_comm. rewrite <- app_assoc. apply Permutation_app_head. rewrite Permutation_app_comm. exact IH.
Qed.
Lemma over_parts_all f s (Q : poly -> Prop) : (forall p, In p (geoms s) -> exists q, f p = Ok (SPoly q) /\ Q q) ->
  exists t, over_parts f s = Ok t /\ forall q, In q (geoms t) -> Q q.
Proof.
  destruct s as [p|l]; cbn; intro H.
  - destruct (H p (or_introl eq_refl)) as (q & -> & K). exists (SPoly q). split; [reflexivity|]. intros q' [<-|[]]. exact K.
  - assert (exists ts, mapM f l = Ok ts /\ forall q, In q (flat_map geoms ts) -> Q q) as (ts & -> & K).
    { induction l as [|p l IH]; cbn; [exists []; split; [reflexivity|intros ? []]|]. destruct (H p (or_introl eq_refl)) as (q & -> & K). cbn.
      destruct IH as (ts & -> & K2); [intros; apply H; now right|]. cbn. exists (SPoly q :: ts). split; [reflexivity|]. cbn. intros q' [<-|I]; [exact K|now apply K2]. }
    cbn. exists (SMulti (flat_map geoms ts)). split; [reflexivity|exact K].
Qed.
Lemma existsb_shift s : existsb (fun k => (1 <=? k)%Z) s = true <-> exists k, In k s /\ (1 <= k)%Z.
Proof. rewrite existsb_exists. split; intros (k & A & B); exists k; (split; [exact A|]); now apply Z.leb_le. Qed.
Lemma unwrap_ext_lon p lo hi (Q : Z -> Prop) : lon_within (-180) 180 p -> (forall k, In k (shifts (map cx (p_ext p))) -> Q k) ->
  (forall k x, Q k -> -180 <= x <= 180 -> lo <= x - 360 * IZR k <= hi) -> lon_within lo hi (unwrap_poly ss p).
Proof.
  intros W S K c C. cbn in C. apply in_map_iff in C. destruct C as ([d k] & <- & D). cbn. apply K; [apply S; now apply in_combine_r in D|apply W; now apply in_combine_l in D].
Qed.
Lemma split_range : forall p, splits_sides sp -> move_invariant iv -> lon_within (-180) 180 p -> so (map cx (p_ext p)) = false ->
  (forall q d, In q (polygons_of (sp (PShape (SPoly (unwrap_poly ss p))) d)) -> iv (SPoly q) = true) ->
  (forall k, In k (shifts (map cx (p_ext p))) -> k = 0%Z \/ k = 1%Z) \/ (forall k, In k (shifts (map cx (p_ext p))) -> k = 0%Z \/ k = (-1)%Z) ->
  exists t, split_antimeridian iv sp so ss (SPoly p) = Ok t /\ forall q, In q (geoms t) -> lon_within (-180) 180 q.
Proof.
  intros p SS MI W SO V K. cbn. unfold split_antimeridian_poly. rewrite SO.
  destruct (no_crossing (map cx (p_ext p))); [exists (SPoly p); split; [reflexivity|]; intros q [<-|[]]; exact W|].
  set (d := shift_dir (shifts (map cx (p_ext p)))). unfold wrap_antimeridian. apply over_parts_all. intros q Q. rewrite convert_geoms in Q.
  pose proof (V q _ Q) as VQ.
  assert (D : lon_within (-180) 180 q \/ lon_within (-540) (-180) q \/ lon_within 180 540 q).
  { unfold d, shift_dir in Q. destruct (existsb _ _) eqn:E.
    - apply existsb_shift in E. destruct E as (k & I & L). destruct K as [K|K]; [|specialize (K k I); lia].
      assert (UW : lon_within (-540) 180 (unwrap_poly ss p)). { eapply unwrap_ext_lon; [exact W|exact K|]. intros k' x [-> | ->] X; cbn; lra. }
      destruct (SS _ _ _ _ _ _ _ UW Q) as [_ [A|A]]; auto.
    - assert (NK : forall k, In k (shifts (map cx (p_ext p))) -> k = 0%Z \/ k = (-1)%Z).
      { intros k I. destruct K as [K|K]; [|now apply K]. destruct (K k I) as [-> | ->]; [now left|].
        assert (existsb (fun k => (1 <=? k)%Z) (shifts (map cx (p_ext p))) = true) by (apply existsb_shift; exists 1%Z; split; [exact I|lia]). congruence. }
      assert (UW : lon_within (-180) 540 (unwrap_poly ss p)). { eapply unwrap_ext_lon; [exact W|exact NK|]. intros k' x [-> | ->] X; cbn; lra. }
      destruct (SS _ _ _ _ _ _ _ UW Q) as [_ [A|A]]; auto. }
  destruct D as [D|D].
  - exists q. split; [|exact D]. exact (wrap_antimeridian_inside iv q D).
  - destruct (wrap_antimeridian_outside iv q MI VQ D) as (r & E & _ & L). exists r. split; [exact E|exact L].
Qed.
End Ordinary.

(** *** The latitude at the antimeridian *)
Lemma pole_lat_lemma : forall c0 r, cx c0 < 0 -> pole_lat (c0 :: r) = cy c0.
Proof.
  intros c0 r H. unfold pole_lat, np_interp. cbn [last]. assert (E : Rltb (cx c0 + 180) 180 = true) by (apply Rltb_spec; lra). now rewrite E.
Qed.

(** *** The polygon around a pole *)
Lemma insert_lon_perm c l : Permutation (insert_lon c l) (c :: l).
Proof. induction l as [|d l IH]; cbn; [reflexivity|]. destruct (Rleb (cx c) (cx d)); [reflexivity|]. rewrite IH. apply perm_swap. Qed.
Lemma sort_lon_perm l : Permutation (sort_lon l) l.
Proof. induction l as [|c l IH]; cbn; [reflexivity|]. rewrite insert_lon_perm. now constructor. Qed.
Lemma insert_lon_sorted c l : StronglySorted (fun a b => cx a <= cx b) l -> StronglySorted (fun a b => cx a <= cx b) (insert_lon c l).
Proof.
  induction 1 as [|d l S1 IH F]; cbn; [repeat constructor|]. destruct (Rleb (cx c) (cx d)) eqn:E.
  - apply Rleb_spec in E. constructor; [now constructor|]. constructor; [exact E|]. eapply Forall_impl; [|exact F]. cbn. intros. lra.
  - apply Rleb_false in E. constructor; [exact IH|]. apply Forall_forall. intros x X. apply (Permutation_in _ (insert_lon_perm c l)) in X.
    destruct X as [<-|X]; [lra|]. rewrite Forall_forall in F. now apply F.
Qed.
Lemma sort_lon_sorted l : StronglySorted (fun a b => cx a <= cx b) (sort_lon l).
Proof. induction l; cbn; [constructor|now apply insert_lon_sorted]. Qed.
Lemma sum_perm l m : Permutation l m -> fold_right Rplus 0 l = fold_right Rplus 0 m.
Proof. induction 1; cbn; lra. Qed.
Lemma pole_polygon_lemma : forall p, exists n lat l,
  (let m := fold_right Rplus 0 (map cy (removelast (p_ext p))) / INR (length (removelast (p_ext p))) in (0 < m -> n = 1) /\ (m <= 0 -> n = -1))
  /\ Permutation l (removelast (p_ext p)) /\ StronglySorted (fun a b => cx a <= cx b) l
  /\ p_ext (pole_polygon p) = [xy (-180) (90 * n); xy (-180) lat] ++ l ++ [xy 180 lat; xy 180 (90 * n); xy (-180) (90 * n)]
  /\ p_ints (pole_polygon p) = p_ints p.
Proof.
  intro p. exists (n_s (pole_coords p)), (pole_lat (pole_coords p)), (pole_coords p).
  pose proof (sort_lon_perm (removelast (p_ext p))) as P. fold (pole_coords p) in P.
  split; [|split; [exact P|split; [apply sort_lon_sorted|split; reflexivity]]].
  rewrite <- (sum_perm _ _ (Permutation_map cy P)), <- (Permutation_length P). cbv zeta. unfold n_s.
  destruct (Rltb _ _) eqn:E; [apply Rltb_spec in E|apply Rltb_false in E]; split; intro; try reflexivity; exfalso; lra.
Qed.

(** *** Polygons beyond a pole through the public function *)
Section Beyond.
Variables (iv : shape -> bool) (mv : shape -> list piece + shape) (cr : piece -> coord * coord -> bool) (pe : piece -> piece -> bool)
  (sp : piece -> coord * coord -> list piece) (so : list R -> bool) (ss : list (R * R) -> list (R * R)).
Lemma split_south_whole p : (forall a b, consecutive (map cx (p_ext p)) a b -> Rabs (b - a) < 180) ->
  (exists c, In c (p_ext p) /\ cy c < -90) ->
  (forall d, cr (PShape (SPoly p)) d = false) -> (forall d, sp (PShape (SPoly p)) d = [PShape (SPoly p)]) ->
  split_polygon iv mv cr pe sp so ss (SPoly p) =
  bind (wrap_south iv (SPoly p)) (fun s2 => bind (split_north iv cr pe sp s2) (fun s3 =>
    if iv s3 then Ok s3 else match mv s3 with inl l => Ok (convert_collection l) | inr s4 => Ok s4 end)).
Proof.
  intros H (c & C & B) CR SP. unfold split_polygon, split_antimeridian. cbn [over_parts].
  unfold split_antimeridian_poly. rewrite no_crossing_spec by exact H. cbn [bind]. unfold split_south. cbn [over_parts]. unfold split_south_poly.
  replace (forallb (fun c => Rleb (-90) (cy c)) (p_ext p)) with false.
  2:{ symmetry. apply (fb_false _ (fun c => -90 <= cy c)); [intro; apply Rleb_spec|]. exists c. split; [exact C|lra]. }
  rewrite SP. unfold split_meridian. cbn [fold_left]. rewrite CR. cbn [convert_collection flat_map app]. reflexivity.
Qed.
Lemma split_north_whole p : (forall a b, consecutive (map cx (p_ext p)) a b -> Rabs (b - a) < 180) ->
  (forall c, In c (p_ext p) -> -90 <= cy c) -> (exists c, In c (p_ext p) /\ 90 < cy c) ->
  (forall d, cr (PShape (SPoly p)) d = false) -> (forall d, sp (PShape (SPoly p)) d = [PShape (SPoly p)]) ->
  split_polygon iv mv cr pe sp so ss (SPoly p) =
  bind (wrap_north iv (SPoly p)) (fun s3 =>
    if iv s3 then Ok s3 else match mv s3 with inl l => Ok (convert_collection l) | inr s4 => Ok s4 end).
Proof.
  intros H L (c & C & B) CR SP. unfold split_polygon, split_antimeridian. cbn [over_parts].
  unfold split_antimeridian_poly. rewrite no_crossing_spec by exact H. cbn [bind]. unfold split_south. cbn [over_parts]. unfold split_south_poly.
  replace (forallb (fun c => Rleb (-90) (cy c)) (p_ext p)) with true.
  2:{ symmetry. apply (fb_spec _ (fun c => -90 <= cy c)); [intro; apply Rleb_spec|]. exact L. }
  cbn [bind]. unfold split_north. cbn [over_parts]. unfold split_north_poly.
  replace (forallb (fun c => Rleb (cy c) 90) (p_ext p)) with false.
  2:{ symmetry. apply (fb_false _ (fun c => cy c <= 90)); [intro; apply Rleb_spec|]. exists c. split; [exact C|lra]. }
  rewrite SP. unfold split_meridian. cbn [fold_left]. rewrite CR. cbn [convert_collection flat_map app]. reflexivity.
Qed.
Lemma normalize_lemma : forall a,
  match a with
  | AShape s => (iv s = true -> normalize_geometry iv mv cr pe sp so ss a = bind (split_polygon iv mv cr pe sp so ss s) (fun t => Ok (RFrame [t], a)))
      /\ (iv s = false -> normalize_geometry iv mv cr pe sp so ss a = Raise ValueError)
  | ASeries l => forall r a', normalize_geometry iv mv cr pe sp so ss a = Ok (r, a') ->
      a' = a /\ exists ts, r = RFrame ts /\ Forall2 (fun s t => split_polygon iv mv cr pe sp so ss s = Ok t) l ts
  | AFrame l => forall r a', normalize_geometry iv mv cr pe sp so ss a = Ok (r, a') ->
      exists ts, r = RFrame ts /\ a' = AFrame ts /\ Forall2 (fun s t => split_polygon iv mv cr pe sp so ss s = Ok t) l ts
  | AOther => normalize_geometry iv mv cr pe sp so ss a = Ok (ROther, a)
  end.
Proof.
  assert (K : forall l ts, mapM (split_polygon iv mv cr pe sp so ss) l = Ok ts -> Forall2 (fun s t => split_polygon iv mv cr pe sp so ss s = Ok t) l ts).
  { induction l as [|s l IH]; intros ts H; cbn in H; [injection H as <-; constructor|].
    destruct (split_polygon iv mv cr pe sp so ss s) eqn:E; cbn in H; [|discriminate].
    destruct (mapM _ l) eqn:E2; cbn in H; [|discriminate]. injection H as <-. constructor; [exact E|now apply IH]. }
  intros [s|l|l|]; cbn.
  - split; intros ->; reflexivity.
  - intros r a' H. destruct (mapM _ l) eqn:E; cbn in H; [|discriminate]. injection H as <- <-. split; [reflexivity|]. eexists. split; [reflexivity|now apply K].
  - intros r a' H. destruct (mapM _ l) eqn:E; cbn in H; [|discriminate]. injection H as <- <-. eexists. split; [reflexivity|]. split; [reflexivity|now apply K].
  - reflexivity.
Qed.
End Beyond.

(** *** Concrete cases *)
Definition box (x0 x1 y0 y1 : R) : list coord := [xy x0 y0; xy x1 y0; xy x1 y1; xy x0 y1; xy x0 y0].
Definition ex_valid (s : shape) : bool := forallb (fun p => (4 <=? length (p_ext p))%nat) (geoms s).
Lemma ex_valid_moves : move_invariant ex_valid.
Proof. intros k p. unfold ex_valid. cbn. now rewrite map_length. Qed.
Lemma box_steps x0 x1 y0 y1 : Rabs (x1 - x0) < 180 -> forall a b, consecutive (map cx (box x0 x1 y0 y1)) a b -> Rabs (b - a) < 180.
Proof.
  intros H a b C. pose proof (Rabs_minus_sym x1 x0). assert (Z0 : forall x, Rabs (x - x) < 180) by (intro; rewrite Rminus_diag_eq, Rabs_R0 by reflexivity; lra).
  cbn in C. apply consecutive_cons in C. destruct C as [[-> [r E]]|C]; [injection E as <-; lra|].
  apply consecutive_cons in C. destruct C as [[-> [r E]]|C]; [injection E as <-; apply Z0|].
  apply consecutive_cons in C. destruct C as [[-> [r E]]|C]; [injection E as <-; lra|].
  apply consecutive_cons in C. destruct C as [[-> [r E]]|C]; [injection E as <-; apply Z0|].
  apply consecutive_cons in C. destruct C as [[-> [r E]]|C]; [discriminate|]. destruct C as ([|? ?] & l2 & E); discriminate.
Qed.
Lemma box_in x0 x1 y0 y1 c : In c (box x0 x1 y0 y1) -> (cx c = x0 \/ cx c = x1) /\ (cy c = y0 \/ cy c = y1).
Proof. cbn. intros [<-|[<-|[<-|[<-|[<-|[]]]]]]; cbn; auto. Qed.

(** A splitter that cuts at a meridian. *)
Definition has_west (x : R) (p : poly) : bool := existsb (fun c => Rleb (cx c) x) (p_ext p).
Definition has_east (x : R) (p : poly) : bool := existsb (fun c => Rleb x (cx c)) (p_ext p).
Definition ex_split (g : piece) (l : coord * coord) : list piece :=
  let x := cx (fst l) in
  match g with
  | PShape (SPoly p) =>
      (if has_west x p then [PShape (SPoly (mk_poly (map (fun c => xy (Rmin (cx c) x) (cy c)) (p_ext p)) []))] else [])
      ++ (if has_east x p then [PShape (SPoly (mk_poly (map (fun c => xy (Rmax (cx c) x) (cy c)) (p_ext p)) []))] else [])
  | _ => [g]
  end.
Lemma ex_split_sides : splits_sides ex_split.
Proof.
  intros p x a b lo hi q W Q. cbn in Q. unfold polygons_of in Q. rewrite flat_map_app in Q. apply in_app_or in Q. destruct Q as [Q|Q].
  - destruct (has_west x p) eqn:E; [|destruct Q]. unfold has_west in E. rewrite existsb_exists in E. destruct E as (c & C & L). apply Rleb_spec in L. cbn in Q. destruct Q as [<-|[]].
    pose proof (W c C). assert (K : forall d, In d (p_ext p) -> lo <= Rmin (cx d) x <= hi /\ Rmin (cx d) x <= x).
    { intros d D. specialize (W d D). unfold Rmin. destruct (Rle_dec _ _); lra. }
    split; [|left]; intros d D; cbn in D; apply in_map_iff in D; destruct D as (e & <- & D); cbn; specialize (K e D); lra.
  - destruct (has_east x p) eqn:E; [|destruct Q]. unfold has_east in E. rewrite existsb_exists in E. destruct E as (c & C & L). apply Rleb_spec in L. cbn in Q. destruct Q as [<-|[]].
    pose proof (W c C). assert (K : forall d, In d (p_ext p) -> lo <= Rmax (cx d) x <= hi /\ x <= Rmax (cx d) x).
    { intros d D. specialize (W d D). unfold Rmax. destruct (Rle_dec _ _); lra. }
    split; [|right]; intros d D; cbn in D; apply in_map_iff in D; destruct D as (e & <- & D); cbn; specialize (K e D); lra.
Qed.
Lemma rhe_value x k : Rabs (x - IZR k) < 1 / 2 -> round_half_even x = k.
Proof.
  intro H. apply Rabs_def2 in H. pose proof (rhe_bounds x) as B. assert (D1 : IZR (round_half_even x) < IZR (k + 1)) by (rewrite plus_IZR; lra).
  assert (D2 : IZR (k - 1) < IZR (round_half_even x)) by (rewrite minus_IZR; lra). apply lt_IZR in D1, D2. lia.
Qed.
Lemma ex_shifts : shifts (map cx (box 170 (-170) 0 10)) = [0; -1; -1; 0; 0]%Z.
Proof.
  cbn. rewrite (rhe_value ((-170 - 170) / 360) (-1)), (rhe_value ((170 - -170) / 360) 1), !(rhe_value ((-170 - -170) / 360) 0), !(rhe_value ((170 - 170) / 360) 0);
    [reflexivity|..]; apply Rabs_def1; cbn; lra.
Qed.
Lemma ex_crossing : no_crossing (map cx (box 170 (-170) 0 10)) = false.
Proof.
  cbn. assert (E : Rltb (Rabs (-170 - 170)) 180 = false) by (apply Rltb_false; rewrite Rabs_left; lra). now rewrite E.
Qed.
Lemma in_bounds_lemma : forall iv mv cr pe sp so ss s t, iv s = true -> (forall p, In p (geoms s) -> ordinary p /\ lon_within (-180) 180 p) ->
  split_polygon iv mv cr pe sp so ss s = Ok t -> forall q, In q (geoms t) -> lon_within (-180) 180 q /\ lat_within (-90) 90 q.
Proof.
  intros iv mv cr pe sp so ss s t V H E q Q. rewrite split_ordinary in E; [|exact V|intros; now apply H]. injection E as <-. destruct (H q Q) as [[L _] W]. now split.
Qed.
Lemma pole_lat_lemma2 : forall west r, cx west < 0 -> pole_lat (west :: r) = cy west
  /\ forall east, cy east = cy west -> pole_lat (west :: r) = latitude_at 180 east west.
Proof.
  intros west r H. rewrite pole_lat_lemma by exact H. split; [reflexivity|]. intros east E. unfold latitude_at. rewrite E. unfold Rdiv. ring.
Qed.
Lemma pole_lat_wrong : exists p west east,
  In west (p_ext p) /\ In east (p_ext p) /\ (forall c, In c (p_ext p) -> cx west <= cx c <= cx east)
  /\ forall c, In c (p_ext (pole_polygon p)) -> cx c = 180 -> cy c <> latitude_at 180 east west.
Proof.
  exists (mk_poly [xy (-100) 70; xy 0 60; xy 100 80; xy (-100) 70] []), (xy (-100) 70), (xy 100 80).
  split; [now left|]. split; [right; right; now left|]. split; [intros c C; cbn in C; destruct C as [<-|[<-|[<-|[<-|[]]]]]; cbn; lra|].
  assert (LA : latitude_at 180 (xy 100 80) (xy (-100) 70) = 75) by (unfold latitude_at; cbn; lra). rewrite LA.
  assert (PC : pole_coords (mk_poly [xy (-100) 70; xy 0 60; xy 100 80; xy (-100) 70] []) = [xy (-100) 70; xy 0 60; xy 100 80]).
  { unfold pole_coords. cbn. assert (A1 : Rleb 0 100 = true) by (apply Rleb_spec; lra). rewrite A1.
    assert (A2 : Rleb (-100) 0 = true) by (apply Rleb_spec; lra). cbn. rewrite A2. reflexivity. }
  unfold pole_polygon. rewrite PC. rewrite pole_lat_lemma by (cbn; lra).
  assert (NS : n_s [xy (-100) 70; xy 0 60; xy 100 80] = 1). { unfold n_s. cbn [map fold_right length cy xy]. assert (B : Rltb 0 ((70 + (60 + (80 + 0))) / INR 3) = true) by (apply Rltb_spec; cbn; lra). now rewrite B. }
  rewrite NS. intros c C X. cbn in C.
  repeat (destruct C as [<-|C]; [cbn in *; lra|]). destruct C.
Qed.
