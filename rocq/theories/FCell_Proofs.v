(** Proofs about cells in binary64. *)
From Coq Require Import ZArith Reals Lra Lia Bool List.
From Flocq Require Import Core Relative IEEE754.BinarySingleNaN.
From Verif Require Import Base BaseFacts Float_Model Float_Spec Float_Proofs FGrid_Model FGrid_Spec FGrid_Proofs FGrid_Proofs2
  FTime_Model FTime_Spec FTime_Proofs Grid_Model FGeom_Model FGeom_Spec FGeom_Proofs FCell_Model FCell_Spec.
Import ListNotations.
Open Scope R_scope.

Definition count (span : Z) (theta : b64) : Z := f_round (fdiv (of_Z span) theta).
Lemma count_bound span theta : (0 < span <= 360)%Z -> usual_step theta ->
  Rabs (IZR (count span theta) * val theta - IZR span) <= val theta / 2 + / 10000000000000 /\ (0 <= count span theta <= 2 ^ 30)%Z.
Proof.
  intros S U. destruct (quotient_spec span theta S U) as (F & V & Q). unfold count. rewrite f_round_val, V.
  assert (E : Rabs (rnd (IZR span / val theta) - IZR span / val theta) <= u * (IZR span / val theta) + tiny).
  { pose proof (rnd_err (IZR span / val theta) _ _ tiny_ok (Rle_refl _)) as E. rewrite (Rabs_pos_eq (IZR span / val theta)) in E by lra.
    replace (1000 * tiny / 1000) with tiny in E by field. lra. }
  pose proof (Znearest_half (fun x => negb (Z.even x)) (rnd (IZR span / val theta))) as H. set (r := rnd (IZR span / val theta)) in *. set (k := ZnearestE r) in *.
  destruct U as [_ [L Up]]. assert (S' : 0 < IZR span <= 360) by (split; [apply (IZR_lt 0)|apply (IZR_le span 360)]; lia).
  assert (X : IZR span / val theta * val theta = IZR span) by (field; lra). set (q := IZR span / val theta) in *. clearbody q r k. split.
  - replace (IZR k * val theta - IZR span) with ((IZR k - r) * val theta + (r - q) * val theta) by (rewrite <- X; ring).
    eapply Rle_trans; [apply Rabs_triang|]. rewrite !Rabs_mult, (Rabs_pos_eq (val theta)) by lra.
    assert (A1 : Rabs (IZR k - r) * val theta <= / 2 * val theta) by (apply Rmult_le_compat_r; [lra|rewrite Rabs_minus_sym; lra]).
    assert (A2 : Rabs (r - q) * val theta <= (u * q + tiny) * val theta) by (apply Rmult_le_compat_r; lra).
    assert (A3 : (u * q + tiny) * val theta <= u * 360 + tiny * 256).
    { rewrite Rmult_plus_distr_r, Rmult_assoc, X. unfold u, tiny. lra. }
    assert (A4 : u * 360 + tiny * 256 <= / 10000000000000) by (unfold u, tiny; lra). lra.
  - apply Rabs_le_inv in E, H. assert (UQ : u * q + tiny <= 1 / 4) by (unfold u, tiny in *; lra). split.
    + assert (K1 : IZR (-1) < IZR k) by lra. apply lt_IZR in K1. lia.
    + apply le_IZR. change (IZR (2 ^ 30)) with 1073741824. lra.
Qed.
Lemma scale_up i k t : 0 <= t -> (i <= k)%Z -> IZR i * t <= IZR k * t.
Proof. intros T I. apply Rmult_le_compat_r; [exact T|now apply IZR_le]. Qed.
Definition err := 2 / 10000000000000.
Lemma edge_close half theta i : (0 < half <= 180)%Z -> usual_step theta -> (0 <= i <= count (2 * half) theta)%Z ->
  close (f_edge (- half) i theta) (- IZR half + IZR i * val theta) err.
Proof.
  intros Hh U I. destruct (count_bound (2 * half) theta ltac:(lia) U) as [B N]. destruct U as [F [L Up]].
  assert (H0 : 0 < IZR half <= 180) by (split; [apply (IZR_lt 0)|apply (IZR_le half 180)]; lia).
  apply Rabs_le_inv in B. rewrite mult_IZR in B. pose proof (scale_up i _ (val theta) ltac:(lra) (proj2 I)) as S1. pose proof (scale_up 0 i (val theta) ltac:(lra) (proj1 I)) as S0.
  rewrite Rmult_0_l in S0. set (w := IZR i * val theta) in *. assert (W : 0 <= w <= 489) by lra.
  destruct (of_Z_spec i) as [Fi Vi]; [lia|]. destruct (fmul_fin (of_Z i) theta Fi F) as [Fm Vm].
  { rewrite Vi. fold w. apply small_bound. rewrite Rabs_pos_eq; lra. }
  rewrite Vi in Vm. fold w in Vm. assert (C : close (fmul (of_Z i) theta) w (6 / 100000000000000)).
  { apply (close_rnd _ w _ 0 489 _ Fm Vm); [rewrite Rminus_diag_eq by reflexivity; rewrite Rabs_R0; lra|rewrite Rabs_pos_eq; lra|unfold u, tiny; lra]. }
  unfold f_edge. replace (- IZR half) with (IZR (- half)) by apply opp_IZR.
  apply (close_add _ _ _ _ 0 (6 / 100000000000000) 489 _ (close_Z (- half) ltac:(lia)) C); [rewrite opp_IZR; apply Rabs_le; lra|unfold huge; lra|unfold err, u, tiny; lra].
Qed.
Lemma coord_close half theta i : (0 < half <= 180)%Z -> usual_step theta -> In i (f_range (2 * half) theta) ->
  close (f_coord (- half) i theta) (- IZR half + (IZR i + 1 / 2) * val theta) err.
Proof.
  intros Hh U I. destruct (product_spec (2 * half) theta i ltac:(lia) U I) as (Fm & Vm & Bm & _).
  assert (H0 : 0 < IZR half <= 180) by (split; [apply (IZR_lt 0)|apply (IZR_le half 180)]; lia).
  set (w := (IZR i + 1 / 2) * val theta) in *. assert (C : close (fmul (fadd (of_Z i) (f_lit 1 (-1))) theta) w (6 / 100000000000000)).
  { apply (close_rnd _ w _ 0 489 _ Fm Vm); [rewrite Rminus_diag_eq by reflexivity; rewrite Rabs_R0; lra|rewrite Rabs_pos_eq; lra|unfold u, tiny; lra]. }
  Transparent f_coord. unfold f_coord. Opaque f_coord. replace (- IZR half) with (IZR (- half)) by apply opp_IZR.
  apply (close_add _ _ _ _ 0 (6 / 100000000000000) 489 _ (close_Z (- half) ltac:(lia)) C); [rewrite opp_IZR; apply Rabs_le; lra|unfold huge; lra|unfold err, u, tiny; lra].
Qed.
Lemma edge_start half theta : (0 < half <= 180)%Z -> usual_step theta -> val (f_edge (- half) 0 theta) = - IZR half.
Proof.
  intros Hh [F [L Up]]. destruct (of_Z_spec 0) as [Fi Vi]; [lia|]. destruct (fmul_fin (of_Z 0) theta Fi F) as [Fm Vm].
  { rewrite Vi, Rmult_0_l. apply small_bound. rewrite Rabs_R0. lra. }
  rewrite Vi, Rmult_0_l, (rnd_id 0) in Vm by apply generic_format_0. destruct (of_Z_spec (- half)) as [Fh Vh]; [lia|].
  assert (H0 : 0 < IZR half <= 180) by (split; [apply (IZR_lt 0)|apply (IZR_le half 180)]; lia).
  destruct (fadd_small (of_Z (- half)) (fmul (of_Z 0) theta) Fh Fm) as [Fa Va]; [rewrite Vh, Vm, opp_IZR; apply Rabs_le; lra|].
  unfold f_edge. rewrite Va, Vh, Vm, Rplus_0_r, rnd_id; [apply opp_IZR|apply fmt_Z; lia].
Qed.
Lemma edge_mono half theta i k : (0 < half <= 180)%Z -> usual_step theta -> (0 <= i < k)%Z -> (k <= count (2 * half) theta)%Z ->
  val (f_edge (- half) i theta) < val (f_edge (- half) k theta).
Proof.
  intros Hh U I K. destruct (edge_close half theta i Hh U ltac:(lia)) as [_ A]. destruct (edge_close half theta k Hh U ltac:(lia)) as [_ B].
  destruct U as [_ [L _]]. pose proof (scale_up (i + 1) k (val theta) ltac:(lra) ltac:(lia)) as S. rewrite plus_IZR in S. apply Rabs_le_inv in A, B. unfold err in *.
  assert (/ 1048576 > 4 / 10000000000000) by lra. lra.
Qed.
Lemma edge_le half theta i k : (0 < half <= 180)%Z -> usual_step theta -> (0 <= i <= k)%Z -> (k <= count (2 * half) theta)%Z ->
  val (f_edge (- half) i theta) <= val (f_edge (- half) k theta).
Proof. intros Hh U I K. destruct (Z.eq_dec i k) as [->|]; [lra|]. left. apply edge_mono; auto; lia. Qed.
Lemma edge_find half theta x : (0 < half <= 180)%Z -> usual_step theta ->
  forall n : nat, (Z.of_nat n <= count (2 * half) theta)%Z -> - IZR half <= x < val (f_edge (- half) (Z.of_nat n) theta) ->
  exists i, (0 <= i < Z.of_nat n)%Z /\ val (f_edge (- half) i theta) <= x < val (f_edge (- half) (i + 1) theta).
Proof.
  intros Hh U n. induction n as [|n IH]; intros N X.
  - change (Z.of_nat 0) with 0%Z in X. rewrite edge_start in X by assumption. lra.
  - destruct (Rlt_or_le x (val (f_edge (- half) (Z.of_nat n) theta))) as [H|H].
    + destruct (IH ltac:(lia) ltac:(lra)) as (i & I & B). exists i. split; [lia|exact B].
    + exists (Z.of_nat n). split; [lia|]. replace (Z.of_nat n + 1)%Z with (Z.of_nat (S n)) by lia. lra.
Qed.
Lemma edge_same half theta x i k : (0 < half <= 180)%Z -> usual_step theta -> In i (f_range (2 * half) theta) -> In k (f_range (2 * half) theta) ->
  val (f_edge (- half) i theta) <= x < val (f_edge (- half) (i + 1) theta) -> val (f_edge (- half) k theta) <= x < val (f_edge (- half) (k + 1) theta) -> i = k.
Proof.
  intros Hh U I K A B. apply in_f_range in I, K; try exact U. fold (count (2 * half) theta) in I, K.
  destruct (Z.lt_trichotomy i k) as [H|[H|H]]; [|exact H|]; exfalso.
  - pose proof (edge_le half theta (i + 1) k Hh U ltac:(lia) ltac:(lia)). lra.
  - pose proof (edge_le half theta (k + 1) i Hh U ltac:(lia) ltac:(lia)). lra.
Qed.
Lemma between half theta i : (0 < half <= 180)%Z -> usual_step theta -> In i (f_range (2 * half) theta) ->
  val (f_edge (- half) i theta) < val (f_coord (- half) i theta) < val (f_edge (- half) (i + 1) theta).
Proof.
  intros Hh U I. destruct (coord_close half theta i Hh U I) as [_ C]. apply in_f_range in I; [|exact U]. fold (count (2 * half) theta) in I.
  destruct (edge_close half theta i Hh U ltac:(lia)) as [_ A]. destruct (edge_close half theta (i + 1) Hh U ltac:(lia)) as [_ B].
  rewrite plus_IZR in B. destruct U as [_ [L _]]. apply Rabs_le_inv in A, B, C. unfold err in *. lra.
Qed.

Definition cell (thi thj : b64) (ij : Z * Z) : fcell :=
  mk_fcell (f_point_id (fst ij) (snd ij) thi thj) (f_edge (-180) (fst ij) thi) (f_edge (-90) (snd ij) thj)
    (f_edge (-180) (fst ij + 1) thi) (f_edge (-90) (snd ij + 1) thj).
Lemma nodup_app {A} (l k : list A) : NoDup l -> NoDup k -> (forall x, In x l -> In x k -> False) -> NoDup (l ++ k).
Proof.
  intros L K D. induction L as [|x l X L IH]; [exact K|]. cbn. constructor; [|apply IH; intros y Y; apply D; now right].
  intro H. apply in_app_or in H as [H|H]; [exact (X H)|exact (D x (or_introl eq_refl) H)].
Qed.
Lemma in_indices thi thj i j : In (i, j) (f_indices thi thj) <-> In i (f_range 360 thi) /\ In j (f_range 180 thj).
Proof.
  unfold f_indices. rewrite in_flat_map. split.
  - intros (j' & J & H). apply in_map_iff in H as (i' & [= -> ->] & I). auto.
  - intros (I & J). exists j. split; [exact J|]. apply in_map_iff. now exists i.
Qed.
Lemma indices_nodup thi thj : NoDup (f_indices thi thj).
Proof.
  unfold f_indices. pose proof (f_range_NoDup 360 thi) as N1. pose proof (f_range_NoDup 180 thj) as N2.
  induction N2 as [|j l J N2 IH]; [constructor|]. cbn [flat_map]. apply nodup_app; [|exact IH|].
  - apply FinFun.Injective_map_NoDup; [intros a b [= E]; exact E|exact N1].
  - intros [a b] H1 H2. apply in_map_iff in H1 as (? & [= <- <-] & _). apply in_flat_map in H2 as (j' & J' & H2). apply in_map_iff in H2 as (? & [= <- <-] & _). exact (J J').
Qed.
Lemma cells_map thi thj : f_gen_cells thi thj = map (cell thi thj) (f_indices thi thj).
Proof. reflexivity. Qed.
Theorem points_inside thi thj : usual_step thi -> usual_step thj ->
  Forall2 (fun c p => c_id c = f_id p /\ inside c p) (f_gen_cells thi thj) (f_gen_points thi thj).
Proof.
  intros U1 U2. rewrite cells_map. unfold f_gen_points.
  assert (H : forall ij, In ij (f_indices thi thj) -> In (fst ij) (f_range 360 thi) /\ In (snd ij) (f_range 180 thj)) by (intros [i j] I; now apply in_indices in I).
  induction (f_indices thi thj) as [|[i j] l IH]; cbn [map]; constructor; [|apply IH; intros x X; apply H; now right].
  destruct (H (i, j) (or_introl eq_refl)) as [I J]. cbn [fst snd] in *. split; [reflexivity|]. unfold inside, cell. cbn [c_west c_east c_south c_north f_lon f_lat fst snd].
  split; [exact (between 180 thi i ltac:(lia) U1 I)|exact (between 90 thj j ltac:(lia) U2 J)].
Qed.
Theorem cells_tile thi thj : usual_step thi -> usual_step thj -> exists e n, tiles (f_gen_cells thi thj) e n
  /\ Rabs (e - 180) <= val thi / 2 + / 1000000000000 /\ Rabs (n - 90) <= val thj / 2 + / 1000000000000.
Proof.
  intros U1 U2. exists (val (f_edge (-180) (count 360 thi) thi)), (val (f_edge (-90) (count 180 thj) thj)).
  destruct (count_bound 360 thi ltac:(lia) U1) as [B1 N1]. destruct (count_bound 180 thj ltac:(lia) U2) as [B2 N2].
  split; [split|].
  - intros x y. split.
    + intros [X Y]. destruct (edge_find 180 thi x ltac:(lia) U1 (Z.to_nat (count 360 thi))) as (i & I & IX); [change (2 * 180)%Z with 360%Z; lia|rewrite Z2Nat.id by lia; exact X|].
      destruct (edge_find 90 thj y ltac:(lia) U2 (Z.to_nat (count 180 thj))) as (j & J & JY); [change (2 * 90)%Z with 180%Z; lia|rewrite Z2Nat.id by lia; exact Y|].
      rewrite Z2Nat.id in I, J by lia. exists (cell thi thj (i, j)). split; [|split; [exact IX|exact JY]].
      rewrite cells_map. apply in_map. apply in_indices. split; apply in_f_range; assumption.
    + intros (c & C & H). rewrite cells_map in C. apply in_map_iff in C as ([i j] & <- & C). apply in_indices in C as [I J].
      apply in_f_range in I, J; try assumption. fold (count 360 thi) in I. fold (count 180 thj) in J. destruct H as [HX HY]. unfold cell in HX, HY. cbn [c_west c_east c_south c_north fst snd] in HX, HY.
      pose proof (edge_le 180 thi 0 i ltac:(lia) U1 ltac:(lia) ltac:(change (2 * 180)%Z with 360%Z; lia)) as A1. rewrite edge_start in A1 by (assumption || lia).
      pose proof (edge_le 180 thi (i + 1) (count 360 thi) ltac:(lia) U1 ltac:(lia) ltac:(change (2 * 180)%Z with 360%Z; lia)) as A2.
      pose proof (edge_le 90 thj 0 j ltac:(lia) U2 ltac:(lia) ltac:(change (2 * 90)%Z with 180%Z; lia)) as A3. rewrite edge_start in A3 by (assumption || lia).
      pose proof (edge_le 90 thj (j + 1) (count 180 thj) ltac:(lia) U2 ltac:(lia) ltac:(change (2 * 90)%Z with 180%Z; lia)) as A4.
      change (- (180))%Z with (-180)%Z in *. change (- (90))%Z with (-90)%Z in *. lra.
  - intros x y k1 k2 c1 c2 K1 K2 [X1 Y1] [X2 Y2]. rewrite cells_map in K1, K2. rewrite nth_error_map in K1, K2.
    destruct (nth_error (f_indices thi thj) k1) as [[i1 j1]|] eqn:E1; [|discriminate]. destruct (nth_error (f_indices thi thj) k2) as [[i2 j2]|] eqn:E2; [|discriminate].
    cbn [option_map] in K1, K2. assert (Q1 : c1 = cell thi thj (i1, j1)) by congruence. assert (Q2 : c2 = cell thi thj (i2, j2)) by congruence. subst c1 c2.
    pose proof (proj1 (in_indices thi thj i1 j1) (nth_error_In _ _ E1)) as [I1 J1]. pose proof (proj1 (in_indices thi thj i2 j2) (nth_error_In _ _ E2)) as [I2 J2].
    pose proof (edge_same 180 thi x i1 i2 ltac:(lia) U1 I1 I2 X1 X2) as EI. pose proof (edge_same 90 thj y j1 j2 ltac:(lia) U2 J1 J2 Y1 Y2) as EJ. subst i2 j2.
    apply (proj1 (NoDup_nth_error _) (indices_nodup thi thj)); [apply nth_error_Some; now rewrite E1|congruence].
  - pose proof (edge_close 180 thi (count 360 thi) ltac:(lia) U1 ltac:(change (2 * 180)%Z with 360%Z; lia)) as [_ A1].
    pose proof (edge_close 90 thj (count 180 thj) ltac:(lia) U2 ltac:(change (2 * 90)%Z with 180%Z; lia)) as [_ A2].
    change (- (180))%Z with (-180)%Z in *. change (- (90))%Z with (-90)%Z in *. apply Rabs_le_inv in A1, A2, B1, B2. unfold err in *. split; apply Rabs_le; lra.
Qed.
Theorem distance_lemma d : usual_distance d ->
  Forall2 (fun c p => c_id c = f_id p /\ inside c p) (f_generate_cells d) (f_generate_points d)
  /\ exists e n, tiles (f_generate_cells d) e n
     /\ Rabs (e - 180) <= val (f_step d) / 2 + / 1000000000000 /\ Rabs (n - 90) <= val (f_step d) / 2 + / 1000000000000.
Proof. intro U. apply usual_distance_step in U. split; [exact (points_inside _ _ U U)|exact (cells_tile _ _ U U)]. Qed.
Lemma first_cell theta : usual_step theta -> In (cell theta theta (0, 0)%Z) (f_gen_cells theta theta).
Proof.
  intro U. rewrite cells_map. apply in_map. apply in_indices. split; [|exact (rows_exist _ U)].
  apply in_f_range; [exact U|]. destruct (count_bound 360 theta ltac:(lia) U) as [B N]. fold (count 360 theta). set (k := count 360 theta) in *. clearbody k.
  destruct (Z.eq_dec k 0) as [->|E]; [exfalso|lia]. rewrite Rmult_0_l in B. apply Rabs_le_inv in B. destruct U as [_ [_ U]]. lra.
Qed.
Lemma c197_witness_lemma : usual_distance d_plain /\ exists c, In c (f_generate_cells d_plain).
Proof.
  split; [exact d_plain_usual|]. pose proof (usual_distance_step _ d_plain_usual) as U. unfold f_generate_cells. revert U. generalize (f_step d_plain). intros t U.
  exists (cell t t (0, 0)%Z). exact (first_cell t U).
Qed.
