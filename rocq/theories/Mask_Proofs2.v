(** A concrete world for masks: unit cells of longitude.  Witnesses against properties that do not hold, and examples. *)
From Coq Require Import String Reals ZArith List Bool Lra Lia Sorting.Permutation.
From Verif Require Import Base BaseFacts RBase RFacts RTrigFacts Tle_Model Instr_Model Instr_Spec Geom_Model Poly_Model Poly_Spec Poly_Proofs Track_Model Track_Spec Track_Proofs Track_Proofs2 Track_Proofs3 Track_Proofs4 Mask_Model Mask_Spec Mask_Proofs.
Import ListNotations.
Local Open Scope R_scope.

(** A mask geometry is a list of cells from k to k + 1 degrees of longitude, a footprint a list of intervals. *)
Definition cell_on (g : list Z) (x y : R) : Prop := exists k, In k g /\ IZR k <= x <= IZR k + 1.
Definition span_on (f : list (R * R)) (x y : R) : Prop := exists s, In s f /\ fst s <= x <= snd s.
Definition whole (x : R) : bool := Rleb x (IZR (Int_part x)).
(** Inside, not on the border. *)
Definition cell_contains (g : list Z) (x y : R) : bool :=
  existsb (Z.eqb (Int_part x)) g && (negb (whole x) || existsb (Z.eqb (Int_part x - 1)) g).
Definition cell_intersects (g : list Z) (x y : R) : bool := existsb (fun k => Rleb (IZR k) x && Rleb x (IZR k + 1)) g.
Definition common (k : Z) (s : R * R) : R * R := (Rmax (IZR k) (fst s), Rmin (IZR k + 1) (snd s)).
Definition overlaps (g : list Z) (f : list (R * R)) : list (R * R) :=
  filter (fun s => Rleb (fst s) (snd s)) (map (fun x => common (fst x) (snd x)) (list_prod g f)).
Definition cell_meets (g : list Z) (f : list (R * R)) : bool := match overlaps g f with [] => false | _ => true end.
Definition cell_cut (g : list Z) (f : list (R * R)) : option (list (R * R)) := match overlaps g f with [] => None | o => Some o end.
Definition cell_buffer (g : list Z) : list Z := flat_map (fun k => [(k - 2)%Z; (k - 1)%Z; k; (k + 1)%Z; (k + 2)%Z]) g.
Definition ex_geo : geo_ops (list (R * R)) (list Z) := mk_geo cell_contains cell_intersects cell_meets cell_cut (@concat Z) cell_buffer.

Lemma int_bounds x : IZR (Int_part x) <= x < IZR (Int_part x) + 1.
Proof. destruct (base_Int_part x). lra. Qed.
Lemma int_is x k : IZR k <= x < IZR k + 1 -> Int_part x = k.
Proof.
  intro H. pose proof (int_bounds x). assert ((Int_part x < k + 1)%Z) by (apply lt_IZR; rewrite plus_IZR; lra). assert ((k < Int_part x + 1)%Z) by (apply lt_IZR; rewrite plus_IZR; lra). lia.
Qed.
Lemma mem k g : existsb (Z.eqb k) g = true <-> In k g.
Proof. rewrite existsb_exists. split; [intros (x & I & E); apply Z.eqb_eq in E; now subst|intro I; exists k; split; [exact I|apply Z.eqb_refl]]. Qed.
Lemma whole_iff x : whole x = true <-> x = IZR (Int_part x).
Proof. unfold whole. rewrite Rleb_spec. pose proof (int_bounds x). split; lra. Qed.
Lemma on_inner g x y : whole x = false -> cell_on g x y <-> In (Int_part x) g.
Proof.
  intro NW. pose proof (int_bounds x) as B. split.
  - intros (k & I & A). destruct (Rle_lt_dec (IZR k + 1) x) as [X|X].
    + exfalso. assert (E : x = IZR (k + 1)) by (rewrite plus_IZR; lra). assert (Q : Int_part x = (k + 1)%Z) by (apply int_is; rewrite <- E; lra).
      assert (T : whole x = true) by (apply whole_iff; rewrite Q; exact E). congruence.
    + rewrite (int_is x k) by lra. exact I.
  - intro I. exists (Int_part x). split; [exact I|lra].
Qed.
Lemma half_not k : whole (IZR k + / 2) = false.
Proof. apply not_true_is_false. intro H. apply whole_iff in H. rewrite (int_is (IZR k + / 2) k) in H by lra. lra. Qed.
Lemma on_half g k y : cell_on g (IZR k + / 2) y <-> In k g.
Proof. rewrite on_inner by apply half_not. now rewrite (int_is (IZR k + / 2) k) by lra. Qed.
Lemma on_incl g h : (forall x y, cell_on g x y -> cell_on h x y) -> incl g h.
Proof. intros H k I. apply (on_half h k 0), H, on_half, I. Qed.
Lemma overlap_iff g f x y : span_on (overlaps g f) x y <-> cell_on g x y /\ span_on f x y.
Proof.
  unfold span_on, cell_on, overlaps. split.
  - intros (s & I & A). apply filter_In in I. destruct I as [I _]. apply in_map_iff in I. destruct I as ([k q] & <- & I). apply in_prod_iff in I. cbn [common fst snd] in A.
    destruct A as [A1 A2]. pose proof (Rmax_l (IZR k) (fst q)). pose proof (Rmax_r (IZR k) (fst q)). pose proof (Rmin_l (IZR k + 1) (snd q)). pose proof (Rmin_r (IZR k + 1) (snd q)).
    split; [exists k|exists q]; (split; [apply I|lra]).
  - intros [(k & K & A) (q & Q & B)]. exists (common k q). assert (C : fst (common k q) <= x <= snd (common k q)) by (cbn; split; [apply Rmax_lub; lra|apply Rmin_glb; lra]). split; [|exact C].
    apply filter_In. split; [apply in_map_iff; exists (k, q); split; [reflexivity|now apply in_prod]|]. apply Rleb_spec. lra.
Qed.
Lemma overlap_none g f : overlaps g f = [] <-> ~ exists x y, cell_on g x y /\ span_on f x y.
Proof.
  split.
  - intros E (x & y & A). apply overlap_iff in A. rewrite E in A. destruct A as (s & [] & _).
  - intro N. destruct (overlaps g f) as [|s l] eqn:E; [reflexivity|]. exfalso. apply N. exists (fst s), 0. apply overlap_iff. exists s. rewrite E. split; [now left|].
    assert (I : In s (overlaps g f)) by (rewrite E; now left). apply filter_In in I. destruct I as [_ I]. apply Rleb_spec in I. lra.
Qed.
Lemma ex_laws : geometry_laws ex_geo cell_on span_on.
Proof.
  constructor; cbn [ex_geo contains intersects meets cut union buffer_target].
  - intros g x y. unfold cell_intersects, cell_on. rewrite existsb_exists. split; intros (k & I & A); exists k; (split; [exact I|]).
    + apply andb_true_iff in A. rewrite !Rleb_spec in A. exact A.
    + apply andb_true_iff. rewrite !Rleb_spec. exact A.
  - intros g x y C. unfold cell_contains in C. apply andb_true_iff in C. destruct C as [C _]. apply mem in C. exists (Int_part x). split; [exact C|]. pose proof (int_bounds x). lra.
  - intros g h x y H C. apply on_incl in H. unfold cell_contains in *. apply andb_true_iff in C. destruct C as [C D]. apply andb_true_iff. split; [apply mem, H, mem, C|].
    apply orb_true_iff in D. apply orb_true_iff. destruct D as [D|D]; [now left|right; apply mem, H, mem, D].
  - intros g f. unfold cell_meets. destruct (overlaps g f) as [|s l] eqn:E.
    + apply overlap_none in E. split; [discriminate|intro X; contradiction].
    + split; [intros _|reflexivity]. assert (I : In s (overlaps g f)) by (rewrite E; now left). exists (fst s), 0. apply overlap_iff. exists s. split; [exact I|]. apply filter_In in I. destruct I as [_ I]. apply Rleb_spec in I. lra.
  - intros g f. unfold cell_cut. destruct (overlaps g f) eqn:E; [apply overlap_none in E; split; [intros _; exact E|reflexivity]|]. split; [discriminate|].
    intro N. apply overlap_none in N. congruence.
  - intros g f c C x y. unfold cell_cut in C. destruct (overlaps g f) eqn:E; [discriminate|]. injection C as <-. rewrite <- E. apply overlap_iff.
  - intros l x y. unfold cell_on. split.
    + intros (k & I & A). apply in_concat in I. destruct I as (g & G & I). exists g. split; [exact G|]. exists k. auto.
    + intros (g & G & k & I & A). exists k. split; [apply in_concat; eauto|exact A].
  - intros g h H x y (k & I & A). apply on_incl in H. exists k. split; [|exact A]. unfold cell_buffer in *. apply in_flat_map in I. apply in_flat_map. destruct I as (j & J & I). exists j. auto.
Qed.

(** A satellite moving by one degree of longitude in each step; its footprint reaches one degree to each side. *)
Definition ex_steps : world :=
  mk_world Z (fun t => t) (fun t => t) (fun t => (IZR t, 0, 500000)) (fun t => (6878137, 0, 0)) (fun t => (0, 6878137, 0)) (fun _ => (0, 7000, 0)) (fun _ => (7000, 0, 0))
    (fun _ => true) (fun _ => (10, 20)) (fun _ => 0) (fun _ _ => 30)
    (list (R * R)) (fun _ e t => [(IZR t - 1, IZR t + 1)]) (fun _ e t => (IZR t, 0, e)) (fun _ e t ij => (IZR t, 0, e))
    (fun _ e p _ => [(px p - 1, px p + 1)]) (fun _ _ l _ => []) (fun l => concat l) ex_split_line (fun _ l => l).
Lemma ex_steps_keeps : clip_keeps (w_clip_order ex_steps).
Proof. intros A x. apply Permutation_refl. Qed.
Lemma int_IZR k : Int_part (IZR k) = k.
Proof. apply int_is. lra. Qed.
Lemma contains_IZR g k y : cell_contains g (IZR k) y = existsb (Z.eqb k) g && existsb (Z.eqb (k - 1)) g.
Proof. unfold cell_contains, whole. rewrite int_IZR. replace (Rleb (IZR k) (IZR k)) with true by (symmetry; apply Rleb_spec; lra). reflexivity. Qed.
Lemma series_loses : exists (W : world) S (O : geo_ops (w_G W) S) on foot sa times i rows src, geometry_laws O on foot /\ clip_keeps (w_clip_order W)
  /\ picks (sa_instruments sa) 0 i
  /\ ground_track_in W S O sa times 0 0 (MSeries rows) src = Ok []
  /\ exists r l, ground_track_in W S O sa times 0 0 (MFrame rows) src = Ok (r :: l).
Proof.
  exists ex_steps, (list Z), ex_geo, cell_on, span_on, ex_sat, [20; 21]%Z, ex_instr, [[0%Z]; [20%Z]], Spice. split; [apply ex_laws|]. split; [apply ex_steps_keeps|]. split; [apply ex_picks|].
  split.
  - unfold ground_track_in. cbn [length Nat.eqb Nat.ltb Nat.leb]. rewrite (py_index_ok _ _ _ ex_picks). cbn [bind buffered_of]. rewrite (ground_masked ex_steps ex_sat _ 0 ex_instr) by apply ex_picks.
    cbn [length Nat.ltb Nat.leb]. replace (filter _ [20; 21]%Z) with (@nil Z); [reflexivity|]. cbn [filter]. unfold kept. cbn [mask_of m_buffered ex_geo contains buffer_target ex_steps w_ssp w_state px py fst snd].
    rewrite !contains_IZR. reflexivity.
  - destruct (ground_in_eq ex_steps (list Z) ex_geo ex_steps_keeps ex_sat [20; 21]%Z 0 ex_instr 0 (MFrame [[0%Z]; [20%Z]]) (concat [[0%Z]; [20%Z]]) Spice ex_picks eq_refl) as (rows & b & E & B & P).
    rewrite E. rewrite (B eq_refl) in P. destruct rows as [|r l]; [|eauto]. exfalso. apply Permutation_nil in P.
    set (m := MFrame [[0%Z]; [20%Z]]) in *. set (k := mask_of ex_steps (list Z) ex_geo (concat [[0%Z]; [20%Z]]) m) in *.
    assert (T : In 20%Z (kept_times ex_steps k ex_instr 0 [20; 21]%Z)).
    { unfold kept_times. cbn [length Nat.ltb Nat.leb]. apply filter_In. split; [now left|]. unfold kept. apply andb_true_iff. split.
      - unfold k. cbn [mask_of m_buffered ex_geo contains buffer_target ex_steps w_ssp w_state px py fst snd]. rewrite contains_IZR. reflexivity.
      - apply (rows_meet ex_steps (list Z) ex_geo cell_on span_on ex_laws m). exists 20, 0. split; [exists [20%Z]; split; [right; now left|exists 20%Z; split; [now left|lra]]|].
        exists (20 - 1, 20 + 1). split; [now left|cbn; lra]. }
    assert (C : exists c, cut_row k (grow_of ex_steps ex_sat ex_instr 0 Spice 20%Z) = Some c).
    { unfold cut_row. destruct (m_cut k _) as [c|] eqn:D; [eauto|]. exfalso. unfold k in D. cbn [mask_of m_cut] in D. apply (l_cut_none _ _ _ ex_laws) in D. apply D. exists 20, 0. split.
      - apply (area_on ex_steps (list Z) ex_geo cell_on span_on ex_laws m). exists [20%Z]. split; [right; now left|exists 20%Z; split; [now left|lra]].
      - exists (20 - 1, 20 + 1). split; [now left|cbn; lra]. }
    destruct C as (c & C). assert (I : In c (cuts ex_steps k (track_rows ex_steps ex_sat ex_instr 0 Spice (kept_times ex_steps k ex_instr 0 [20; 21]%Z)))).
    { unfold cuts. apply in_some. rewrite <- C. apply in_map, in_map. exact T. }
    rewrite P in I. exact I.
Qed.
Lemma border_lost : exists (W : world) S (O : geo_ops (w_G W) S) on foot sa times i rows g, geometry_laws O on foot /\ clip_keeps (w_clip_order W)
  /\ picks (sa_instruments sa) 0 i /\ (forall x y, in_mask on (MFrame rows) x y <-> on g x y)
  /\ orbit_track_in W S O sa times 0 0 (MFrame rows) WGS84 false false false false = Ok []
  /\ exists r l, orbit_track_in W S O sa times 0 0 (MGeometry g) WGS84 false false false false = Ok (r :: l).
Proof.
  exists ex_steps, (list Z), ex_geo, cell_on, span_on, ex_sat, [1]%Z, ex_instr, [[0%Z]; [1%Z]], [0; 1]%Z. split; [apply ex_laws|]. split; [apply ex_steps_keeps|]. split; [apply ex_picks|]. split.
  { intros x y. symmetry. exact (l_union _ _ _ ex_laws [[0%Z]; [1%Z]] x y). }
  split.
  - destruct (orbit_in_eq ex_steps (list Z) ex_geo ex_steps_keeps ex_sat [1]%Z 0 ex_instr 0 (MFrame [[0%Z]; [1%Z]]) WGS84 false false false false ex_picks) as (rows & -> & P).
    f_equal. apply Permutation_nil. symmetry. rewrite P. unfold times_in. cbn [filter mask_of m_contains rows_of existsb ex_geo contains ex_steps w_ssp w_state px py fst snd]. rewrite !contains_IZR. reflexivity.
  - destruct (orbit_in_eq ex_steps (list Z) ex_geo ex_steps_keeps ex_sat [1]%Z 0 ex_instr 0 (MGeometry [0; 1]%Z) WGS84 false false false false ex_picks) as (rows & -> & P).
    destruct rows as [|r l]; [|eauto]. exfalso. apply Permutation_nil in P.
    assert (I : In (orow_of ex_steps ex_sat ex_instr 0 WGS84 false false false false 1%Z)
      (filter (fun r => intersects ex_geo (area_of ex_steps (list Z) ex_geo (MGeometry [0; 1]%Z)) (px (o_geom r)) (py (o_geom r)))
        (map (orow_of ex_steps ex_sat ex_instr 0 WGS84 false false false false)
          (times_in ex_steps (mask_of ex_steps (list Z) ex_geo (area_of ex_steps (list Z) ex_geo (MGeometry [0; 1]%Z)) (MGeometry [0; 1]%Z)) [1]%Z)))).
    { apply filter_In. split.
      - apply in_map. apply filter_In. split; [now left|]. cbn [mask_of m_contains rows_of existsb ex_geo contains ex_steps w_ssp w_state px py fst snd]. rewrite contains_IZR. reflexivity.
      - apply (l_intersects _ _ _ ex_laws). exists 1%Z. split; [right; now left|cbn; lra]. }
    match type of P with ?l = [] => change (In (orow_of ex_steps ex_sat ex_instr 0 WGS84 false false false false 1%Z) l) in I end. rewrite P in I. exact I.
Qed.
