(** Proofs about masked cells (C164) and the points of the Fibonacci lattice (C71, C72). *)
From Coq Require Import Reals ZArith List Bool Permutation Lia Lra Psatz.
From Verif Require Import Base RBase RFacts Grid_Model Grid_Spec Grid_Proofs Fib_Proofs Grid_Proofs2.
Import ListNotations.
Open Scope R_scope.

Lemma py_range_nth n i : (0 <= i < n)%Z -> nth_error (py_range 0 n) (Z.to_nat i) = Some i.
Proof.
  intro H. unfold py_range. rewrite nth_error_map.
  assert (E : nth_error (seq 0 (Z.to_nat (n - 0))) (Z.to_nat i) = Some (Z.to_nat i)).
  { rewrite (nth_error_nth' _ 0%nat) by (rewrite seq_length; lia). rewrite seq_nth by lia. reflexivity. }
  rewrite E. cbn. f_equal. lia.
Qed.
Lemma py_range_length n : length (py_range 0 n) = Z.to_nat n.
Proof. unfold py_range. rewrite map_length, seq_length. f_equal. lia. Qed.
Lemma lattice_lemma clip d all : generate_fibonacci_lattice_points clip d None = Ok all ->
  exists n, compute_number_samples d = Ok n /\ length all = Z.to_nat n
    /\ forall i, (0 <= i < n)%Z -> exists g, nth_error all (Z.to_nat i) = Some g /\ g_id g = i
       /\ -90 < g_lat g < 90 /\ (IZR n + 2) * sin (g_lat g * (PI / 180)) = 2 * (IZR i + 1) - (IZR n + 2)
       /\ -180 < g_lon g <= 180 /\ exists phi k, 0 < phi /\ phi * phi = phi + 1 /\ (g_lon g + 360 * IZR k) * phi = 360 * IZR i.
Proof.
  unfold generate_fibonacci_lattice_points. intro H. destruct (compute_number_samples d) as [n|] eqn:E; cbn [bind] in H; [|discriminate].
  exists n. split; [reflexivity|]. rewrite fib_global in H. injection H as <-. split; [rewrite map_length; apply py_range_length|].
  intros i I. exists (mk_gpoint i (fib_lon i) (fib_lat i n)). rewrite nth_error_map, (py_range_nth n i I). cbn [option_map g_id g_lat g_lon].
  split; [reflexivity|]. split; [reflexivity|]. split; [exact (fib_lat_range i n I)|]. split.
  - pose proof (fib_lat_sin i n I) as S. unfold radians in S.
    rewrite S.
    assert (0 < IZR n) by (apply IZR_lt; lia). unfold fib_sin. field. lra.
  - split; [exact (fib_lon_range i)|]. destruct (fib_lon_eqm i) as [k K]. pose proof golden_pos as G. exists golden, (- k)%Z. split; [lra|]. split.
    + unfold golden. pose proof (sqrt_sqrt 5 ltac:(lra)). nra.
    + rewrite K, opp_IZR. field. lra.
Qed.

Lemma lattice_ok clip d n : compute_number_samples d = Ok n ->
  generate_fibonacci_lattice_points clip d None = Ok (map (fun i => mk_gpoint i (fib_lon i) (fib_lat i n)) (py_range 0 n)).
Proof. intro E. unfold generate_fibonacci_lattice_points. rewrite E. reflexivity. Qed.
Lemma lattice_distinct clip d all a b g h : generate_fibonacci_lattice_points clip d None = Ok all ->
  nth_error all a = Some g -> nth_error all b = Some h -> a <> b -> g_lon g <> g_lon h /\ g_lat g <> g_lat h.
Proof.
  unfold generate_fibonacci_lattice_points. intros H A B N. destruct (compute_number_samples d) as [n|] eqn:E; cbn [bind] in H; [|discriminate].
  rewrite fib_global in H. injection H as <-. rewrite nth_error_map in A, B.
  assert (R : forall k i, nth_error (py_range 0 n) k = Some i -> i = Z.of_nat k /\ (0 <= i < n)%Z).
  { intros k i K. pose proof (nth_error_In _ _ K) as I. apply py_range_In in I. split; [|exact I]. unfold py_range in K. rewrite nth_error_map in K.
    destruct (nth_error (seq 0 (Z.to_nat (n - 0))) k) as [q|] eqn:Q; [|discriminate]. cbn in K. injection K as <-.
    assert (L : (k < length (seq 0 (Z.to_nat (n - 0))))%nat) by (apply nth_error_Some; congruence). rewrite seq_length in L.
    rewrite (nth_error_nth' _ 0%nat) in Q by (rewrite seq_length; lia). rewrite seq_nth in Q by lia. injection Q as <-. reflexivity. }
  destruct (nth_error (py_range 0 n) a) as [i|] eqn:EA; [|discriminate]. destruct (nth_error (py_range 0 n) b) as [j|] eqn:EB; [|discriminate].
  cbn [option_map] in A, B. injection A as <-. injection B as <-. cbn [g_lon g_lat]. destruct (R a i EA) as [-> Ri]. destruct (R b j EB) as [-> Rj].
  split; [intro X; apply fib_lon_distinct in X; lia|]. intro X. destruct (Z.lt_trichotomy (Z.of_nat a) (Z.of_nat b)) as [L|[L|L]]; [|lia|].
  - pose proof (fib_lat_inc (Z.of_nat a) (Z.of_nat b) n ltac:(lia) ltac:(lia)). lra.
  - pose proof (fib_lat_inc (Z.of_nat b) (Z.of_nat a) n ltac:(lia) ltac:(lia)). lra.
Qed.

Lemma raw_square thi thj b s i j : rect_set (grid_cell thi thj b s (i, j)) = square_of thi thj b s i j.
Proof. destruct s; reflexivity. Qed.
Lemma square_convex thi thj b s i j : convex (square_of thi thj b s i j).
Proof. destruct s; apply rect_convex. Qed.

Section Cells.
Variable clip : (R -> R -> Prop) -> list shape -> list shape.
Hypothesis Hclip : clips_cells clip.
Variable hull : (R -> R -> Prop) -> R -> R -> Prop.
Hypothesis Hhull : hulls hull.

Lemma hull_convex (A : R -> R -> Prop) : convex (hull A).
Proof. intros x1 y1 x2 y2 t H1 H2 T. apply Hhull. intros B CB AB. apply CB; [apply (proj1 (Hhull A x1 y1) H1 B CB AB)|apply (proj1 (Hhull A x2 y2) H2 B CB AB)|exact T]. Qed.
Lemma hull_least (A B : R -> R -> Prop) x y : convex B -> (forall u v, A u v -> B u v) -> hull A x y -> B x y.
Proof. intros CB AB H. exact (proj1 (Hhull A x y) H B CB AB). Qed.

Lemma masked_cell thi thj m s cs c : max_lon (mk_bnds m) <> -180 -> gen_cells clip hull thi thj (Some m) s = Ok cs -> In c cs ->
  exists i j, In (i, j) (grid_indices thi thj (mk_bnds m) s) /\ sh_id c = point_id i j thi thj
    /\ (exists x y, square_of thi thj (mk_bnds m) s i j x y /\ mk_covers m x y)
    /\ sh_set c = hull (fun x y => square_of thi thj (mk_bnds m) s i j x y /\ mk_covers m x y).
Proof.
  intros N H C. unfold gen_cells in H. destruct (mk_valid m) eqn:V; [|simpl in H; rewrite V in H; discriminate].
  rewrite (valid_bounds m V N) in H. cbn [bind] in H. injection H as <-.
  apply in_map_iff in C. destruct C as [r' [<- Hr']]. apply Hclip in Hr'. destruct Hr' as [r [Hr [(x & y & X1 & X2) ->]]].
  apply in_map_iff in Hr. destruct Hr as [[i j] [<- HI]]. cbn [sh_set sh_id] in *. rewrite raw_square in *.
  exists i, j. split; [exact HI|]. split; [reflexivity|]. split; [exists x, y; auto|reflexivity].
Qed.
Lemma masked_cell_shape thi thj m s cs c : max_lon (mk_bnds m) <> -180 -> gen_cells clip hull thi thj (Some m) s = Ok cs -> In c cs ->
  convex (sh_set c) /\ exists i j, sh_id c = point_id i j thi thj
    /\ (exists x y, square_of thi thj (mk_bnds m) s i j x y /\ mk_covers m x y)
    /\ (forall x y, square_of thi thj (mk_bnds m) s i j x y -> mk_covers m x y -> sh_set c x y)
    /\ (forall x y, sh_set c x y -> square_of thi thj (mk_bnds m) s i j x y)
    /\ (forall B, convex B -> (forall x y, mk_covers m x y -> B x y) -> forall x y, sh_set c x y -> B x y)
    /\ (convex (mk_covers m) -> forall x y, sh_set c x y -> mk_covers m x y).
Proof.
  intros N H C. destruct (masked_cell thi thj m s cs c N H C) as (i & j & _ & E1 & E2 & E3). rewrite E3. split; [apply hull_convex|].
  exists i, j. split; [exact E1|]. split; [exact E2|]. split; [intros x y S M; apply Hhull; intros B _ AB; apply AB; auto|].
  split; [intros x y; apply hull_least; [apply square_convex|tauto]|].
  split; [intros B CB AB x y; apply hull_least; [exact CB|intros u v [_ M]; auto]|].
  intros CM x y. apply hull_least; [exact CM|tauto].
Qed.
Lemma interior_mono (A B : R -> R -> Prop) x y : (forall u v, A u v -> B u v) -> interior A x y -> interior B x y.
Proof. intros AB (d & D & I). exists d. split; [exact D|]. intros u v U W. apply AB, I; auto. Qed.
Lemma masked_cells_disjoint thi thj m s cs c c' x y : 0 < thi -> 0 < thj -> max_lon (mk_bnds m) <> -180 ->
  gen_cells clip hull thi thj (Some m) s = Ok cs -> In c cs -> In c' cs ->
  interior (sh_set c) x y -> interior (sh_set c') x y -> sh_id c = sh_id c' /\ same_set (sh_set c) (sh_set c').
Proof.
  intros Hi Hj N H C C' I I'. destruct (masked_cell thi thj m s cs c N H C) as (i & j & G & E1 & _ & E3).
  destruct (masked_cell thi thj m s cs c' N H C') as (i' & j' & G' & E1' & _ & E3').
  assert (E : (i, j) = (i', j')).
  { apply (raw_disjoint thi thj (mk_bnds m) s (i, j) (i', j') x y Hi Hj G G'); rewrite raw_square.
    - apply (interior_mono (sh_set c)); [|exact I]. rewrite E3. intros u v. apply hull_least; [apply square_convex|tauto].
    - apply (interior_mono (sh_set c')); [|exact I']. rewrite E3'. intros u v. apply hull_least; [apply square_convex|tauto]. }
  injection E as <- <-. split; [congruence|]. rewrite E3, E3'. intros u v. reflexivity.
Qed.
End Cells.

(** An L-shaped mask. *)
Definition l_mask : mask := mk_mask true (mk_bounds 0 0 20 20) (fun x y => rect 0 20 0 20 x y /\ (x <= 5 \/ y <= 5)).
Lemma l_regular : regular_mask l_mask.
Proof.
  unfold regular_mask, l_mask. cbn. split; [reflexivity|]. split; [intros x y [H _]; exact H|]. lra.
Qed.
Lemma l_bulges clip hull : clips_cells clip -> hulls hull -> exists cs c x y,
  gen_cells clip hull 10 10 (Some l_mask) NoStrips = Ok cs /\ In c cs /\ sh_set c x y /\ ~ mk_covers l_mask x y.
Proof.
  intros Hc Hh. unfold gen_cells. rewrite (valid_bounds l_mask eq_refl) by (cbn; lra). cbn [bind].
  set (raw := map (fun ij : Z * Z => _) _). exists (map (fun r => mk_shape (sh_id r) (hull (sh_set r))) (clip (mk_covers l_mask) raw)).
  set (sq := rect (-180 + IZR 18 * 10) (-180 + (IZR 18 + 1) * 10) (-90 + IZR 9 * 10) (-90 + (IZR 9 + 1) * 10)).
  set (r := mk_shape (point_id 18 9 10 10) (fun x y => sq x y /\ mk_covers l_mask x y)).
  assert (A : In r (clip (mk_covers l_mask) raw)).
  { apply Hc. exists (mk_shape (point_id 18 9 10 10) sq). split; [|split].
    - apply in_map_iff. exists (18, 9)%Z. split; [reflexivity|]. cbn [grid_indices]. apply in_flat_map. exists 9%Z.
      assert (T : forall z k, (z = IZR k)%R -> round_half_even z = k).
      { intros z k ->. apply (rhe_integer k). }
      unfold row_range, col_range. cbn [mk_bnds l_mask min_lat max_lat min_lon max_lon]. split.
      + apply py_range_In. rewrite (T _ 9%Z), (T _ 11%Z) by lra. lia.
      + apply in_map_iff. exists 18%Z. split; [reflexivity|]. apply py_range_In. rewrite (T _ 18%Z), (T _ 20%Z) by lra. lia.
    - exists 1, 1. unfold sq, rect. cbn. unfold rect. lra.
    - reflexivity. }
  exists (mk_shape (sh_id r) (hull (sh_set r))), (15 / 2), (15 / 2). split; [reflexivity|]. split; [apply in_map_iff; exists r; auto|].
  split; [|unfold l_mask; cbn; unfold rect; lra]. cbn [sh_set r]. apply Hh. intros B CB AB.
  replace (15 / 2) with (1 / 2 * 10 + (1 - 1 / 2) * 5) at 1 by lra. replace (15 / 2) with (1 / 2 * 5 + (1 - 1 / 2) * 10) by lra.
  apply CB; [apply AB| apply AB|lra]; unfold sq, rect, l_mask; cbn; unfold rect; lra.
Qed.
