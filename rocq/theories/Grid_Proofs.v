(** Proofs about the equally spaced grid. *)
From Coq Require Import Reals ZArith List Bool Permutation Lia Lra Psatz ClassicalDescription.
From Verif Require Import Base RBase RFacts Grid_Model Grid_Spec.
Import ListNotations.
Open Scope R_scope.

Lemma py_range_In a b i : In i (py_range a b) <-> (a <= i < b)%Z.
Proof.
  unfold py_range. rewrite in_map_iff. split.
  - intros [k [<- H]]. apply in_seq in H. lia.
  - intro H. exists (Z.to_nat (i - a)). split; [lia|]. apply in_seq. lia.
Qed.
Lemma NoDup_map_inj {A B} (f : A -> B) l :
  (forall x y, In x l -> In y l -> f x = f y -> x = y) -> NoDup l -> NoDup (map f l).
Proof.
  intros Hf Hl. induction Hl as [|x l Hx Hl IH]; simpl; constructor.
  - intro H. apply in_map_iff in H. destruct H as [y [E Hy]]. apply Hx.
    rewrite (Hf x y); simpl; auto.
  - apply IH. intros u v Hu Hv. apply Hf; simpl; auto.
Qed.
Lemma py_range_NoDup a b : NoDup (py_range a b).
Proof. unfold py_range. apply NoDup_map_inj; [intros; lia|apply seq_NoDup]. Qed.
Lemma py_trunc_nonneg x : 0 <= x -> py_trunc x = Int_part x.
Proof. intro H. unfold py_trunc. apply Rleb_spec in H. now rewrite H. Qed.

Lemma grid_indices_In thi thj b i j :
  In (i, j) (grid_indices thi thj b NoStrips) <-> In i (col_range thi b) /\ In j (row_range thj b).
Proof.
  simpl. rewrite in_flat_map. split.
  - intros [j' [Hj H]]. apply in_map_iff in H. destruct H as [i' [E Hi]]. inversion E; subst. auto.
  - intros [Hi Hj]. exists j. split; auto. apply in_map_iff. now exists i.
Qed.
Lemma NoDup_flat_map {A B} (f : A -> list B) l :
  NoDup l -> (forall x, In x l -> NoDup (f x)) ->
  (forall x y u, In x l -> In y l -> In u (f x) -> In u (f y) -> x = y) -> NoDup (flat_map f l).
Proof.
  intros Hl. induction Hl as [|x l Hx Hl IH]; simpl; intros H1 H2; [constructor|].
  assert (G : forall (a b : list B), NoDup a -> NoDup b -> (forall u, In u a -> In u b -> False) -> NoDup (a ++ b)).
  { intros a b Ha Hb Hd. induction Ha as [|z a Hz Ha IHa]; simpl; auto. constructor.
    - intro Hi. apply in_app_or in Hi. destruct Hi as [Hi|Hi]; [contradiction|]. eapply Hd; [left; reflexivity|exact Hi].
    - apply IHa. intros u Hu. apply Hd. now right. }
  apply G; auto.
  - apply IH; auto. intros u v w Hu Hv. apply H2; auto.
  - intros u Hu Hv. apply in_flat_map in Hv. destruct Hv as [y [Hy Hv]].
    apply Hx. rewrite (H2 x y u); auto.
Qed.
Lemma grid_indices_NoDup thi thj b s : NoDup (grid_indices thi thj b s).
Proof.
  destruct s; simpl.
  - apply NoDup_flat_map.
    + apply py_range_NoDup.
    + intros j Hj. apply NoDup_map_inj; [|apply py_range_NoDup]. congruence.
    + intros j j' u Hj Hj' H H'. apply in_map_iff in H, H'. destruct H as [? [<- _]]. destruct H' as [? [E _]]. congruence.
  - apply NoDup_map_inj; [congruence|apply py_range_NoDup].
  - apply NoDup_map_inj; [congruence|apply py_range_NoDup].
Qed.

Lemma div_eq x th : 0 < th -> x / th * th = x.
Proof. intro H. field. lra. Qed.
Lemma rhe_fits x th : 0 <= x -> 0 < th -> fits (round_half_even (x / th)) th x.
Proof.
  intros Hx Ht. pose proof (rhe_bounds (x / th)) as B. pose proof (div_eq x th Ht) as E.
  split.
  - rewrite <- (rhe_integer 0). apply rhe_mono. apply Rmult_le_reg_r with th; auto. rewrite E. lra.
  - set (n := IZR (round_half_even (x / th))) in *. set (q := x / th) in *. clearbody n q.
    apply Rabs_le. nra.
Qed.
(** The centre of column i lies in the closed bounds when i is in the range, and i is in the range when
    the centre lies in the open bounds. *)
Lemma range_lo lo th i : 0 < th -> (round_half_even (lo / th) <= i)%Z -> lo <= (IZR i + 1 / 2) * th.
Proof.
  intros Ht H. apply IZR_le in H. pose proof (rhe_bounds (lo / th)) as B. pose proof (div_eq lo th Ht) as E.
  set (q := lo / th) in *. clearbody q. nra.
Qed.
Lemma range_hi hi th i : 0 < th -> (i < round_half_even (hi / th))%Z -> (IZR i + 1 / 2) * th <= hi.
Proof.
  intros Ht H. assert (H' : (i + 1 <= round_half_even (hi / th))%Z) by lia. apply IZR_le in H'. rewrite plus_IZR in H'.
  pose proof (rhe_bounds (hi / th)) as B. pose proof (div_eq hi th Ht) as E.
  set (q := hi / th) in *. clearbody q. nra.
Qed.
Lemma range_lo_conv lo th i : 0 < th -> lo < (IZR i + 1 / 2) * th -> (round_half_even (lo / th) <= i)%Z.
Proof.
  intros Ht H. pose proof (rhe_bounds (lo / th)) as B. pose proof (div_eq lo th Ht) as E.
  set (q := lo / th) in *. assert (q < IZR i + 1 / 2) by (apply Rmult_lt_reg_r with th; lra).
  assert (IZR (round_half_even q) < IZR (i + 1)) by (rewrite plus_IZR; lra). apply lt_IZR in H1. lia.
Qed.
Lemma range_hi_conv hi th i : 0 < th -> (IZR i + 1 / 2) * th < hi -> (i < round_half_even (hi / th))%Z.
Proof.
  intros Ht H. pose proof (rhe_bounds (hi / th)) as B. pose proof (div_eq hi th Ht) as E.
  set (q := hi / th) in *. assert (IZR i + 1 / 2 < q) by (apply Rmult_lt_reg_r with th; lra).
  apply lt_IZR. lra.
Qed.

Section G.
Variable clip_points : (R -> R -> Prop) -> list gpoint -> list gpoint.
Hypothesis Hclip : clips_points clip_points.
Variable clip_cells : (R -> R -> Prop) -> list shape -> list shape.
Hypothesis Hcells : clips_cells clip_cells.
Variable convex_hull : (R -> R -> Prop) -> R -> R -> Prop.
Hypothesis Hhull : hulls convex_hull.

Lemma clip_In P l g : In g (clip_points P l) <-> In g l /\ P (g_lon g) (g_lat g).
Proof.
  destruct (Hclip P l) as [rest [Hp [Hi Ho]]]. rewrite Forall_forall in Hi, Ho. split.
  - intro H. split; [|auto]. apply (Permutation_in g (Permutation_sym Hp)). apply in_or_app. now left.
  - intros [H1 H2]. apply (Permutation_in g Hp) in H1. apply in_app_or in H1. destruct H1 as [H1|H1]; auto.
    exfalso. now apply (Ho g).
Qed.
Lemma clip_ids P l : NoDup (map g_id l) -> NoDup (map g_id (clip_points P l)).
Proof.
  intro H. destruct (Hclip P l) as [rest [Hp _]].
  apply (Permutation_NoDup (Permutation_map g_id Hp)) in H. rewrite map_app in H.
  revert H. generalize (map g_id (clip_points P l)) (map g_id rest). induction l0 as [|x l0 IH]; intros l1 H; [constructor|].
  inversion H; subst. constructor; [|now apply (IH l1)]. intro Hin. apply H2. apply in_or_app. now left.
Qed.

(** ** C75 *)
Lemma global_points thi thj l :
  0 < thi -> 0 < thj -> gen_points clip_points thi thj None = Ok l ->
  exists n m, fits n thi 360 /\ fits m thj 180
    /\ length l = (Z.to_nat m * Z.to_nat n)%nat
    /\ forall i j, (0 <= i < n)%Z -> (0 <= j < m)%Z ->
         exists g, nth_error l (Z.to_nat (j * n + i)) = Some g /\ center thi thj i j g.
Proof.
  intros Hi Hj H. unfold gen_points in H. cbn [bind get_bounds] in H. injection H as <-.
  cbn [grid_indices]. unfold col_range, row_range. cbn [globe min_lon max_lon min_lat max_lat].
  replace (-180 + 180) with 0 by lra. replace (-90 + 90) with 0 by lra.
  replace (180 + 180) with 360 by lra. replace (90 + 90) with 180 by lra.
  replace (round_half_even (0 / thi)) with 0%Z by (replace (0 / thi) with (IZR 0) by (simpl; field; lra); now rewrite rhe_integer).
  replace (round_half_even (0 / thj)) with 0%Z by (replace (0 / thj) with (IZR 0) by (simpl; field; lra); now rewrite rhe_integer).
  assert (Fi : fits (round_half_even (360 / thi)) thi 360) by (apply rhe_fits; lra).
  assert (Fj : fits (round_half_even (180 / thj)) thj 180) by (apply rhe_fits; lra).
  exists (round_half_even (360 / thi)), (round_half_even (180 / thj)). split; [assumption|]. split; [assumption|].
  set (n := round_half_even (360 / thi)) in *. set (m := round_half_even (180 / thj)) in *.
  destruct Fi as [Hn _]. destruct Fj as [Hm _]. clearbody n m.
  assert (Ln : forall k : nat, length (py_range 0 (Z.of_nat k)) = k).
  { intro k. unfold py_range. rewrite map_length, seq_length. lia. }
  assert (G : forall (f : Z -> Z -> gpoint) s (k : nat),
     length (flat_map (fun j => map (fun i => f i j) (py_range 0 n)) (map (fun q => (0 + Z.of_nat q)%Z) (seq s k))) = (k * Z.to_nat n)%nat
     /\ forall i j, (0 <= i < n)%Z -> (Z.of_nat s <= j < Z.of_nat s + Z.of_nat k)%Z ->
       nth_error (flat_map (fun j => map (fun i => f i j) (py_range 0 n)) (map (fun q => (0 + Z.of_nat q)%Z) (seq s k)))
         (Z.to_nat ((j - Z.of_nat s) * n + i)) = Some (f i j)).
  { intros f s k. revert s. induction k as [|k IH]; intro s; cbn [seq map flat_map].
    - split; [reflexivity|]. intros; lia.
    - destruct (IH (S s)) as [L N]. assert (Lh : forall j, length (map (fun i => f i j) (py_range 0 n)) = Z.to_nat n).
      { intro j. rewrite map_length. rewrite <- (Z2Nat.id n) at 1 by lia. apply Ln. }
      split.
      + rewrite app_length, L, Lh. lia.
      + intros i j Hi' Hj'. destruct (Z.eq_dec j (Z.of_nat s)) as [->|Ne].
        * rewrite nth_error_app1 by (rewrite Lh; nia).
          replace (Z.to_nat ((Z.of_nat s - Z.of_nat s) * n + i)) with (Z.to_nat i) by (f_equal; lia).
          replace (0 + Z.of_nat s)%Z with (Z.of_nat s) by lia.
          erewrite map_nth_error; [reflexivity|]. unfold py_range. erewrite map_nth_error.
          2:{ rewrite (nth_error_nth' _ 0%nat) by (rewrite seq_length; lia). rewrite seq_nth by lia. reflexivity. }
          f_equal. lia.
        * rewrite nth_error_app2 by (rewrite Lh; nia). rewrite Lh.
          replace (Z.to_nat ((j - Z.of_nat s) * n + i) - Z.to_nat n)%nat with (Z.to_nat ((j - Z.of_nat (S s)) * n + i)).
          2:{ rewrite <- Z2Nat.inj_sub by lia. f_equal. lia. }
          apply N; lia. }
  rewrite flat_map_concat_map, concat_map, map_map, <- flat_map_concat_map.
  rewrite (flat_map_ext _ (fun j => map (fun i => grid_point thi thj (i, j)) (py_range 0 n))) by (intro; now rewrite map_map).
  destruct (G (fun i j => grid_point thi thj (i, j)) 0%nat (Z.to_nat m)) as [L N].
  unfold py_range at 2. rewrite Z.sub_0_r. split; [exact L|].
  intros i j Hi' Hj'. exists (grid_point thi thj (i, j)). split.
  - unfold py_range at 2. rewrite Z.sub_0_r. specialize (N i j Hi'). replace (j - Z.of_nat 0)%Z with j in N by lia. apply N. lia.
  - unfold center, grid_point. simpl. lra.
Qed.
Lemma global_points_In thi thj l :
  0 < thi -> 0 < thj -> gen_points clip_points thi thj None = Ok l ->
  forall g, In g l -> -180 <= g_lon g <= 180 /\ -90 <= g_lat g <= 90.
Proof.
  intros Hi Hj H g Hg. unfold gen_points in H. cbn [bind get_bounds] in H. injection H as <-.
  apply in_map_iff in Hg. destruct Hg as [[i j] [<- Hg]]. apply grid_indices_In in Hg. destruct Hg as [G1 G2].
  unfold col_range, row_range in *. apply py_range_In in G1, G2. simpl in *.
  pose proof (range_lo _ _ _ Hi (proj1 G1)). pose proof (range_hi _ _ _ Hi (proj2 G1)).
  pose proof (range_lo _ _ _ Hj (proj1 G2)). pose proof (range_hi _ _ _ Hj (proj2 G2)). lra.
Qed.

(** ** C76 *)
Lemma id_inj i j i' j' th a :
  0 < th -> (1 <= Int_part (360 / th))%Z ->
  (a <= i < a + Int_part (360 / th))%Z -> (a <= i' < a + Int_part (360 / th))%Z ->
  point_id i j th th = point_id i' j' th th -> i = i' /\ j = j'.
Proof.
  intros Ht Hn Hi Hi'. unfold point_id.
  rewrite py_trunc_nonneg by (apply Rlt_le, Rdiv_lt_0_compat; lra).
  set (n := Int_part (360 / th)) in *. unfold np_mod. destruct (Z.eqb_spec n 0); [lia|]. intro E.
  assert (Em : (i mod n = i' mod n)%Z /\ j = j').
  { assert (B1 := Z.mod_pos_bound i n ltac:(lia)). assert (B2 := Z.mod_pos_bound i' n ltac:(lia)).
    destruct (Z.div_mod_unique n j j' (i mod n) (i' mod n)); try lia. }
  destruct Em as [Em ->]. split; [|reflexivity].
  assert (D1 := Z.div_mod i n ltac:(lia)). assert (D2 := Z.div_mod i' n ltac:(lia)). rewrite Em in D1.
  set (q := (i / n)%Z) in *. set (q' := (i' / n)%Z) in *. assert (q = q') by nia. subst q'. rewrite H in D1. lia.
Qed.
Definition narrow (th : R) (b : bounds) : Prop :=
  (round_half_even ((max_lon b + 180) / th) - round_half_even ((min_lon b + 180) / th) <= Int_part (360 / th))%Z.
Lemma ids_NoDup th b s :
  0 < th <= 360 -> narrow th b -> NoDup (map (fun ij => point_id (fst ij) (snd ij) th th) (grid_indices th th b s)).
Proof.
  intros Ht Hn. unfold narrow in Hn.
  assert (H1 : (1 <= Int_part (360 / th))%Z).
  { assert (1 <= 360 / th). { apply Rmult_le_reg_r with th; [lra|]. rewrite div_eq; lra. }
    pose proof (Int_part_bounds (360 / th)). assert (0 < Int_part (360 / th))%Z; [apply lt_IZR; lra|lia]. }
  apply NoDup_map_inj; [|apply grid_indices_NoDup].
  intros [i j] [i' j'] G G' E. simpl in E. destruct s.
  - apply grid_indices_In in G, G'. destruct G as [G _]. destruct G' as [G' _].
    unfold col_range in *. apply py_range_In in G, G'.
    destruct (id_inj i j i' j' th (round_half_even ((min_lon b + 180) / th))); try lia; try lra; auto. now subst.
  - simpl in G, G'. apply in_map_iff in G, G'. destruct G as [x [Ex _]]. destruct G' as [x' [Ex' _]].
    inversion Ex; inversion Ex'; subst.
    destruct (id_inj 0 j 0 j' th 0); try lia; try lra; auto. now subst.
  - simpl in G, G'. apply in_map_iff in G, G'. destruct G as [x [Ex G]]. destruct G' as [x' [Ex' G']].
    inversion Ex; inversion Ex'; subst. unfold col_range in *. apply py_range_In in G, G'.
    destruct (id_inj i 0 i' 0 th (round_half_even ((min_lon b + 180) / th))); try lia; try lra; auto. now subst.
Qed.
Lemma width_narrow th b : 0 < th -> min_lon b <= max_lon b -> max_lon b - min_lon b <= 360 - 2 * th -> narrow th b.
Proof.
  intros Ht Hb H. unfold narrow.
  pose proof (rhe_bounds ((max_lon b + 180) / th)) as B1. pose proof (rhe_bounds ((min_lon b + 180) / th)) as B2.
  pose proof (Int_part_bounds (360 / th)) as B3.
  pose proof (div_eq (max_lon b + 180) th Ht) as E1. pose proof (div_eq (min_lon b + 180) th Ht) as E2.
  pose proof (div_eq 360 th Ht) as E3.
  assert (G : (max_lon b + 180) / th - (min_lon b + 180) / th <= 360 / th - 2).
  { apply Rmult_le_reg_r with th; auto. lra. }
  assert (IZR (round_half_even ((max_lon b + 180) / th) - round_half_even ((min_lon b + 180) / th)) < IZR (Int_part (360 / th) + 1)).
  { rewrite minus_IZR, plus_IZR. lra. }
  apply lt_IZR in H0. lia.
Qed.
Lemma points_ids_masked th m l :
  0 < th <= 360 -> min_lon (mk_bnds m) <= max_lon (mk_bnds m) -> max_lon (mk_bnds m) <> -180 ->
  max_lon (mk_bnds m) - min_lon (mk_bnds m) <= 360 - 2 * th ->
  gen_points clip_points th th (Some m) = Ok l -> NoDup (map g_id l).
Proof.
  intros Ht Hb H0 Hw H. unfold gen_points in H. cbn [bind get_bounds] in H.
  destruct (mk_valid m); [|discriminate]. cbn [bind] in H. destruct (Req_EM_T _ _); [contradiction|].
  injection H as <-. apply clip_ids. rewrite map_map. cbn [grid_point g_id].
  refine (ids_NoDup th _ NoStrips Ht _). apply width_narrow; simpl; lra.
Qed.
Lemma cells_ids_global th s l :
  0 < th <= 360 -> round_half_even (360 / th) = Int_part (360 / th) ->
  gen_cells clip_cells convex_hull th th None s = Ok l -> NoDup (map sh_id l).
Proof.
  intros Ht He H. unfold gen_cells in H. cbn [bind get_bounds] in H. injection H as <-.
  rewrite map_map. cbn [grid_cell cell_id sh_id]. apply ids_NoDup; auto. unfold narrow. simpl.
  replace (180 + 180) with 360 by lra. replace (-180 + 180) with 0 by lra.
  replace (0 / th) with (IZR 0) by (simpl; field; lra). rewrite rhe_integer. lia.
Qed.
Lemma NoDup_map_inj_inv {A B} (f : A -> B) l : NoDup (map f l) -> forall x y, In x l -> In y l -> f x = f y -> x = y.
Proof.
  induction l as [|z l IH]; simpl; intros N x y Hx Hy E; [contradiction|]. inversion N; subst.
  destruct Hx as [->|Hx]; destruct Hy as [->|Hy]; auto.
  - exfalso. apply H1. rewrite E. now apply in_map.
  - exfalso. apply H1. rewrite <- E. now apply in_map.
Qed.
Lemma rhe_ge_floor x : (Int_part x <= round_half_even x <= Int_part x + 1)%Z.
Proof. unfold round_half_even. destruct (Rltb _ _); [lia|]. destruct (Rltb _ _); [lia|]. destruct (Z.even _); lia. Qed.
Lemma overshoot_iff th : 0 < th ->
  (IZR (round_half_even (360 / th)) * th <= 360 <-> round_half_even (360 / th) = Int_part (360 / th)).
Proof.
  intro Ht. pose proof (div_eq 360 th Ht) as E. pose proof (Int_part_bounds (360 / th)) as B.
  pose proof (rhe_ge_floor (360 / th)) as F. split; intro H.
  - assert (IZR (round_half_even (360 / th)) <= 360 / th).
    { apply Rmult_le_reg_r with th; lra. }
    assert (IZR (round_half_even (360 / th)) < IZR (Int_part (360 / th) + 1)) by (rewrite plus_IZR; lra).
    apply lt_IZR in H1. lia.
  - rewrite H. set (q := 360 / th) in *. clearbody q. nra.
Qed.
Lemma rhe_zero th : 0 < th -> round_half_even (0 / th) = 0%Z.
Proof. intro H. replace (0 / th) with (IZR 0) by (simpl; field; lra). apply rhe_integer. Qed.
Lemma globe_col th : 0 < th -> col_range th globe = py_range 0 (round_half_even (360 / th)).
Proof.
  intro H. unfold col_range. simpl. replace (180 + 180) with 360 by lra. replace (-180 + 180) with 0 by lra. now rewrite rhe_zero.
Qed.
Lemma globe_row th : 0 < th -> row_range th globe = py_range 0 (round_half_even (180 / th)).
Proof.
  intro H. unfold row_range. simpl. replace (90 + 90) with 180 by lra. replace (-90 + 90) with 0 by lra. now rewrite rhe_zero.
Qed.
Lemma globe_narrow th : 0 < th -> round_half_even (360 / th) = Int_part (360 / th) -> narrow th globe.
Proof.
  intros H E. unfold narrow. simpl. replace (180 + 180) with 360 by lra. replace (-180 + 180) with 0 by lra. rewrite rhe_zero by auto. lia.
Qed.
Lemma ids_global_iff th :
  0 < th < 360 ->
  (NoDup (map (fun ij => point_id (fst ij) (snd ij) th th) (grid_indices th th globe NoStrips))
   <-> round_half_even (360 / th) = Int_part (360 / th)).
Proof.
  intros Ht. split.
  - intro N. destruct (Z.eq_dec (round_half_even (360 / th)) (Int_part (360 / th))) as [|Ne]; auto. exfalso.
    pose proof (rhe_ge_floor (360 / th)) as F. set (n := Int_part (360 / th)) in *.
    assert (Hr : round_half_even (360 / th) = (n + 1)%Z) by lia.
    assert (H1 : (1 <= n)%Z).
    { assert (1 <= 360 / th). { apply Rmult_le_reg_r with th; [lra|]. rewrite div_eq; lra. }
      pose proof (Int_part_bounds (360 / th)). fold n in H0. assert (0 < n)%Z; [apply lt_IZR; lra|lia]. }
    assert (R1 : In (0%Z, 0%Z) (grid_indices th th globe NoStrips) /\ In (n, 0%Z) (grid_indices th th globe NoStrips)).
    { rewrite !grid_indices_In, globe_col, globe_row, !py_range_In by lra. rewrite Hr.
      assert (0 < round_half_even (180 / th))%Z; [|lia]. apply (range_hi_conv 180 th 0); simpl; lra. }
    destruct R1 as [R1 R2].
    assert (Ei : point_id 0 0 th th = point_id n 0 th th).
    { unfold point_id. rewrite py_trunc_nonneg by (apply Rlt_le, Rdiv_lt_0_compat; lra). fold n.
      unfold np_mod. destruct (Z.eqb_spec n 0); [lia|]. rewrite Z_mod_same_full, Zmod_0_l. reflexivity. }
    pose proof (NoDup_map_inj_inv _ _ N _ _ R1 R2 Ei) as X. injection X. lia.
  - intros E. apply ids_NoDup; [lra|]. apply globe_narrow; lra || auto.
Qed.
Lemma points_ids_global_iff th l :
  0 < th < 360 -> gen_points clip_points th th None = Ok l ->
  (NoDup (map g_id l) <-> forall g, In g l -> g_lon g + th / 2 <= 180).
Proof.
  intros Ht H. unfold gen_points in H. cbn [bind get_bounds] in H. injection H as <-.
  rewrite map_map. cbn [grid_point g_id]. rewrite ids_global_iff, <- overshoot_iff by lra.
  assert (Hn : (0 < round_half_even (360 / th))%Z) by (apply (range_hi_conv 360 th 0); simpl; lra).
  assert (Hm : (0 < round_half_even (180 / th))%Z) by (apply (range_hi_conv 180 th 0); simpl; lra).
  set (n := round_half_even (360 / th)) in *. split.
  - intros E g Hg. apply in_map_iff in Hg. destruct Hg as [[i j] [<- Hg]]. apply grid_indices_In in Hg.
    rewrite globe_col, py_range_In in Hg by lra. fold n in Hg. simpl.
    assert (H : (i + 1 <= n)%Z) by lia. apply IZR_le in H. rewrite plus_IZR in H. nra.
  - intro H. specialize (H (grid_point th th ((n - 1)%Z, 0%Z))). simpl in H. rewrite minus_IZR in H.
    assert (-180 + (IZR n - 1 + 1 / 2) * th + th / 2 <= 180); [|lra]. apply H.
    apply in_map. apply grid_indices_In. rewrite globe_col, globe_row, !py_range_In by lra. fold n. lia.
Qed.

(** ** C77, C78: cells *)
Lemma cell_rect thi thj b ij x y :
  rect_set (grid_cell thi thj b NoStrips ij) x y <->
  rect (-180 + IZR (fst ij) * thi) (-180 + (IZR (fst ij) + 1) * thi) (-90 + IZR (snd ij) * thj) (-90 + (IZR (snd ij) + 1) * thj) x y.
Proof. reflexivity. Qed.
Lemma Forall2_map2 {A B C} (f : A -> B) (g : A -> C) (P : B -> C -> Prop) l :
  (forall x, In x l -> P (f x) (g x)) -> Forall2 P (map f l) (map g l).
Proof. induction l; simpl; intro H; constructor; auto. Qed.
Lemma points_cells thi thj ps cs :
  0 < thi -> 0 < thj -> gen_points clip_points thi thj None = Ok ps ->
  gen_cells clip_cells convex_hull thi thj None NoStrips = Ok cs ->
  Forall2 (fun p c => g_id p = sh_id c /\
     same_set (sh_set c) (fun x y => Rabs (x - g_lon p) <= thi / 2 /\ Rabs (y - g_lat p) <= thj / 2)) ps cs.
Proof.
  intros Hi Hj H H'. unfold gen_points, gen_cells in *. cbn [bind get_bounds] in H, H'.
  injection H as <-. injection H' as <-. apply Forall2_map2. intros [i j] _.
  split; [reflexivity|]. intros x y. cbn [sh_set]. rewrite cell_rect. unfold rect. simpl. split.
  - intros [? ?]. split; apply Rabs_le; lra.
  - intros [H1 H2]. unfold Rabs in *. destruct (Rcase_abs _); destruct (Rcase_abs _); lra.
Qed.
Lemma hull_ext (A : R -> R -> Prop) x y : A x y -> convex_hull A x y.
Proof. intro H. apply Hhull. intros B _ HB. auto. Qed.
Lemma rect_convex w e s n : convex (rect w e s n).
Proof. unfold convex, rect. intros. repeat split; nra. Qed.
Lemma masked_point_cell thi thj m ps cs p :
  gen_points clip_points thi thj (Some m) = Ok ps ->
  gen_cells clip_cells convex_hull thi thj (Some m) NoStrips = Ok cs ->
  0 < thi -> 0 < thj -> In p ps -> exists c, In c cs /\ sh_id c = g_id p /\ sh_set c (g_lon p) (g_lat p).
Proof.
  intros H H' Hi Hj Hp. unfold gen_points, gen_cells in *.
  destruct (get_bounds (Some m)) as [b|]; cbn [bind] in *; [|discriminate].
  injection H as <-. injection H' as <-. apply clip_In in Hp. destruct Hp as [Hp Hc].
  apply in_map_iff in Hp. destruct Hp as [ij [<- Hij]].
  set (r := mk_shape (cell_id (grid_cell thi thj b NoStrips ij)) (rect_set (grid_cell thi thj b NoStrips ij))).
  assert (Hr : rect_set (grid_cell thi thj b NoStrips ij) (g_lon (grid_point thi thj ij)) (g_lat (grid_point thi thj ij))).
  { apply cell_rect. unfold rect. simpl. nra. }
  exists (mk_shape (sh_id r) (convex_hull (fun x y => sh_set r x y /\ mk_covers m x y))). split; [|split].
  - apply (in_map (fun r => mk_shape (sh_id r) (convex_hull (sh_set r))) _ (mk_shape (sh_id r) (fun x y => sh_set r x y /\ mk_covers m x y))).
    apply Hcells. exists r. split; [|split; [|reflexivity]].
    + apply in_map_iff. now exists ij.
    + eexists; eexists; split; [exact Hr|exact Hc].
  - reflexivity.
  - apply hull_ext. split; assumption.
Qed.
(** Every masked cell lies within one grid square. *)
Lemma masked_cell_in_square thi thj m cs c :
  gen_cells clip_cells convex_hull thi thj (Some m) NoStrips = Ok cs -> In c cs ->
  exists i j, sh_id c = point_id i j thi thj /\
    forall x y, sh_set c x y ->
      rect (-180 + IZR i * thi) (-180 + (IZR i + 1) * thi) (-90 + IZR j * thj) (-90 + (IZR j + 1) * thj) x y.
Proof.
  intros H Hc. unfold gen_cells in H. destruct (get_bounds (Some m)) as [b|]; cbn [bind] in *; [|discriminate].
  injection H as <-. apply in_map_iff in Hc. destruct Hc as [r' [<- Hr']]. apply Hcells in Hr'.
  destruct Hr' as [r [Hr [_ ->]]]. apply in_map_iff in Hr. destruct Hr as [[i j] [<- _]].
  exists i, j. split; [reflexivity|]. intros x y Hx. cbn [sh_set] in Hx. refine (proj1 (Hhull _ _ _) Hx (rect _ _ _ _) (rect_convex _ _ _ _) _).
  intros u v [Hu _]. exact Hu.
Qed.
Lemma cover1 (n0 n1 : Z) th X : 0 < th -> (n0 < n1)%Z -> IZR n0 * th <= X <= IZR n1 * th ->
  exists i, (n0 <= i < n1)%Z /\ IZR i * th <= X <= (IZR i + 1) * th.
Proof.
  intros Ht Hn HX. pose proof (Int_part_bounds (X / th)) as B. pose proof (div_eq X th Ht) as E.
  destruct (Req_dec X (IZR n1 * th)) as [->|Ne].
  - exists (n1 - 1)%Z. rewrite minus_IZR. split; [lia|]. lra.
  - set (q := X / th) in *. clearbody q. exists (Int_part q). assert (IZR n0 <= q) by (apply Rmult_le_reg_r with th; lra).
    assert (q < IZR n1) by (apply Rmult_lt_reg_r with th; lra). split.
    + assert (IZR n0 < IZR (Int_part q + 1)) by (rewrite plus_IZR; lra). apply lt_IZR in H1.
      assert (IZR (Int_part q) < IZR n1) by lra. apply lt_IZR in H2. lia.
    + nra.
Qed.
Lemma union_all thi thj b :
  let n0 := round_half_even ((min_lon b + 180) / thi) in let n1 := round_half_even ((max_lon b + 180) / thi) in
  let m0 := round_half_even ((min_lat b + 90) / thj) in let m1 := round_half_even ((max_lat b + 90) / thj) in
  0 < thi -> 0 < thj -> (n0 < n1)%Z -> (m0 < m1)%Z -> forall x y,
  (exists ij, In ij (grid_indices thi thj b NoStrips) /\ rect_set (grid_cell thi thj b NoStrips ij) x y) <->
  rect (-180 + IZR n0 * thi) (-180 + IZR n1 * thi) (-90 + IZR m0 * thj) (-90 + IZR m1 * thj) x y.
Proof.
  intros n0 n1 m0 m1 Hi Hj Hn Hm x y. split.
  - intros [[i j] [H1 H2]]. apply grid_indices_In in H1. unfold col_range, row_range in H1. rewrite !py_range_In in H1.
    fold n0 n1 m0 m1 in H1. apply (proj1 (cell_rect _ _ b _ _ _)) in H2. unfold rect in *. simpl in H2. destruct H1 as [[A1 A2] [A3 A4]].
    assert (A2' : (i + 1 <= n1)%Z) by lia. assert (A4' : (j + 1 <= m1)%Z) by lia.
    apply IZR_le in A1, A3, A2', A4'. rewrite plus_IZR in A2', A4'.
    apply (Rmult_le_compat_r thi) in A1, A2'; try lra. apply (Rmult_le_compat_r thj) in A3, A4'; lra.
  - intros [Hx Hy]. destruct (cover1 n0 n1 thi (x + 180) Hi Hn) as [i [I1 I2]]; [lra|].
    destruct (cover1 m0 m1 thj (y + 90) Hj Hm) as [j [J1 J2]]; [lra|].
    exists (i, j). split.
    + apply grid_indices_In. unfold col_range, row_range. rewrite !py_range_In. auto.
    + apply cell_rect. unfold rect. simpl. lra.
Qed.
Lemma cells_union thi thj cs :
  0 < thi < 720 -> 0 < thj < 360 -> gen_cells clip_cells convex_hull thi thj None NoStrips = Ok cs ->
  exists n m, fits n thi 360 /\ fits m thj 180
    /\ same_set (fun x y => exists c, In c cs /\ sh_set c x y) (rect (-180) (-180 + IZR n * thi) (-90) (-90 + IZR m * thj)).
Proof.
  intros Hi Hj H. unfold gen_cells in H. cbn [bind get_bounds] in H. injection H as <-.
  exists (round_half_even (360 / thi)), (round_half_even (180 / thj)).
  split; [apply rhe_fits; lra|]. split; [apply rhe_fits; lra|]. intros x y.
  pose proof (union_all thi thj globe) as U. simpl min_lon in U. simpl max_lon in U. simpl min_lat in U. simpl max_lat in U.
  replace (180 + 180) with 360 in U by lra. replace (-180 + 180) with 0 in U by lra.
  replace (90 + 90) with 180 in U by lra. replace (-90 + 90) with 0 in U by lra. rewrite !rhe_zero in U by lra.
  replace (-180) with (-180 + 0 * thi) at 1 by lra. replace (-90) with (-90 + 0 * thj) at 1 by lra.
  rewrite <- U; try lra.
  - split.
    + intros [c [Hc Hx]]. apply in_map_iff in Hc. destruct Hc as [ij [<- Hij]]. exists ij. auto.
    + intros [ij [Hij Hx]]. eexists. split; [apply in_map_iff; exists ij; split; [reflexivity|exact Hij]|exact Hx].
  - apply (range_hi_conv 360 thi 0); simpl; lra.
  - apply (range_hi_conv 180 thj 0); simpl; lra.
Qed.
(** Interior of a planar set. *)
Lemma interior_rect w e s n x y : interior (rect w e s n) x y -> w < x < e /\ s < y < n.
Proof.
  intros [d [Hd H]]. assert (K : Rabs (d / 2) < d) by (rewrite Rabs_right; lra).
  assert (K0 : Rabs 0 < d) by (rewrite Rabs_R0; lra).
  assert (K' : Rabs (- (d / 2)) < d) by (rewrite Rabs_Ropp; exact K).
  destruct (H (x + d / 2) (y + d / 2)) as [? ?].
  { now replace (x + d / 2 - x) with (d / 2) by lra. } { now replace (y + d / 2 - y) with (d / 2) by lra. }
  destruct (H (x + - (d / 2)) (y + - (d / 2))) as [? ?].
  { now replace (x + - (d / 2) - x) with (- (d / 2)) by lra. } { now replace (y + - (d / 2) - y) with (- (d / 2)) by lra. }
  lra.
Qed.
Lemma index_unique th i i' X : 0 < th -> IZR i * th < X < (IZR i + 1) * th -> IZR i' * th < X < (IZR i' + 1) * th -> i = i'.
Proof.
  intros Ht H H'. assert (IZR i < IZR i' + 1) by (apply Rmult_lt_reg_r with th; lra).
  assert (IZR i' < IZR i + 1) by (apply Rmult_lt_reg_r with th; lra).
  rewrite <- plus_IZR in *. apply lt_IZR in H0, H1. lia.
Qed.
Lemma raw_disjoint thi thj b s ij ij' x y :
  0 < thi -> 0 < thj -> In ij (grid_indices thi thj b s) -> In ij' (grid_indices thi thj b s) ->
  interior (rect_set (grid_cell thi thj b s ij)) x y -> interior (rect_set (grid_cell thi thj b s ij')) x y -> ij = ij'.
Proof.
  intros Hi Hj G G' H H'. destruct ij as [i j], ij' as [i' j'].
  destruct s.
  - apply (interior_rect (-180 + IZR i * thi) (-180 + (IZR i + 1) * thi) (-90 + IZR j * thj) (-90 + (IZR j + 1) * thj)) in H.
    apply (interior_rect (-180 + IZR i' * thi) (-180 + (IZR i' + 1) * thi) (-90 + IZR j' * thj) (-90 + (IZR j' + 1) * thj)) in H'.
    f_equal; [apply (index_unique thi _ _ (x + 180)) | apply (index_unique thj _ _ (y + 90))]; lra.
  - apply (interior_rect (min_lon b) (max_lon b) (-90 + IZR j * thj) (-90 + (IZR j + 1) * thj)) in H.
    apply (interior_rect (min_lon b) (max_lon b) (-90 + IZR j' * thj) (-90 + (IZR j' + 1) * thj)) in H'.
    simpl in G, G'. apply in_map_iff in G, G'. destruct G as [? [E _]]. destruct G' as [? [E' _]].
    inversion E; inversion E'; subst. f_equal. apply (index_unique thj _ _ (y + 90)); lra.
  - apply (interior_rect (-180 + IZR i * thi) (-180 + (IZR i + 1) * thi) (min_lat b) (max_lat b)) in H.
    apply (interior_rect (-180 + IZR i' * thi) (-180 + (IZR i' + 1) * thi) (min_lat b) (max_lat b)) in H'.
    simpl in G, G'. apply in_map_iff in G, G'. destruct G as [? [E _]]. destruct G' as [? [E' _]].
    inversion E; inversion E'; subst. f_equal. apply (index_unique thi _ _ (x + 180)); lra.
Qed.
Lemma cells_disjoint thi thj s cs k k' c c' x y :
  0 < thi -> 0 < thj -> gen_cells clip_cells convex_hull thi thj None s = Ok cs ->
  nth_error cs k = Some c -> nth_error cs k' = Some c' ->
  interior (sh_set c) x y -> interior (sh_set c') x y -> k = k'.
Proof.
  intros Hi Hj H Hk Hk' I I'. unfold gen_cells in H. cbn [bind get_bounds] in H. injection H as <-.
  rewrite nth_error_map in Hk, Hk'.
  destruct (nth_error (grid_indices thi thj globe s) k) as [ij|] eqn:E; [|discriminate]. cbn [option_map] in Hk. injection Hk as <-.
  destruct (nth_error (grid_indices thi thj globe s) k') as [ij'|] eqn:E'; [|discriminate]. cbn [option_map] in Hk'. injection Hk' as <-.
  assert (ij = ij').
  { apply (raw_disjoint thi thj globe s ij ij' x y); auto; eapply nth_error_In; eauto. }
  subst ij'. pose proof (grid_indices_NoDup thi thj globe s) as N.
  rewrite NoDup_nth_error in N. apply N.
  - apply nth_error_Some. congruence.
  - congruence.
Qed.
Lemma cell_position thi thj cs :
  0 < thi -> 0 < thj -> gen_cells clip_cells convex_hull thi thj None NoStrips = Ok cs ->
  exists n m, fits n thi 360 /\ fits m thj 180 /\ length cs = (Z.to_nat m * Z.to_nat n)%nat
    /\ forall i j, (0 <= i < n)%Z -> (0 <= j < m)%Z ->
      exists c, nth_error cs (Z.to_nat (j * n + i)) = Some c
        /\ same_set (sh_set c) (rect (-180 + IZR i * thi) (-180 + IZR (i + 1) * thi) (-90 + IZR j * thj) (-90 + IZR (j + 1) * thj)).
Proof.
  intros Hi Hj H. destruct (global_points thi thj _ Hi Hj eq_refl) as [n [m [F1 [F2 [L P]]]]].
  pose proof (points_cells thi thj _ _ Hi Hj eq_refl H) as F. exists n, m. split; auto. split; auto. split.
  - rewrite <- L. symmetry. clear - F. induction F; simpl; congruence.
  - intros i j I J. destruct (P i j I J) as [g [Hg [Hc1 Hc2]]].
    assert (Q : forall (A B : Type) (R : A -> B -> Prop) l l', Forall2 R l l' -> forall k a, nth_error l k = Some a -> exists b, nth_error l' k = Some b /\ R a b).
    { clear. intros A B R l l' F. induction F as [|x y l l' Hx F IH]; intros [|k] a; simpl; try discriminate.
      - intro E. injection E as <-. eauto.
      - apply IH. }
    destruct (Q _ _ _ _ _ F _ _ Hg) as [c [Hn [_ Hs]]]. exists c. split; auto.
    intros x y. rewrite (Hs x y), Hc1, Hc2, !plus_IZR. unfold rect. split.
    + intros [H1 H2]. unfold Rabs in *. destruct (Rcase_abs _); destruct (Rcase_abs _); lra.
    + intros [? ?]. split; apply Rabs_le; lra.
Qed.
Lemma py_range_nth a b k : (0 <= k < b - a)%Z -> nth_error (py_range a b) (Z.to_nat k) = Some (a + k)%Z.
Proof.
  intro H. unfold py_range. erewrite map_nth_error.
  2:{ rewrite (nth_error_nth' _ 0%nat) by (rewrite seq_length; lia). rewrite seq_nth by lia. reflexivity. }
  f_equal. lia.
Qed.
Lemma lat_strips th thi cs :
  0 < th -> gen_cells clip_cells convex_hull thi th None LatStrips = Ok cs ->
  exists m, fits m th 180 /\ length cs = Z.to_nat m /\ forall j, (0 <= j < m)%Z ->
    exists c, nth_error cs (Z.to_nat j) = Some c /\ same_set (sh_set c) (rect (-180) 180 (-90 + IZR j * th) (-90 + IZR (j + 1) * th)).
Proof.
  intros Ht H. unfold gen_cells in H. cbn [bind get_bounds] in H. injection H as <-. cbn [grid_indices].
  rewrite globe_row by auto. exists (round_half_even (180 / th)). assert (F : fits (round_half_even (180 / th)) th 180) by (apply rhe_fits; lra).
  split; auto. rewrite !map_map. split.
  - unfold py_range. rewrite !map_length, seq_length. f_equal. lia.
  - intros j Hj. eexists. split; [apply map_nth_error, py_range_nth; lia|]. intros x y.
    rewrite plus_IZR. replace (0 + j)%Z with j by lia. reflexivity.
Qed.
Lemma lon_strips th thj cs :
  0 < th -> gen_cells clip_cells convex_hull th thj None LonStrips = Ok cs ->
  exists n, fits n th 360 /\ length cs = Z.to_nat n /\ forall i, (0 <= i < n)%Z ->
    exists c, nth_error cs (Z.to_nat i) = Some c /\ same_set (sh_set c) (rect (-180 + IZR i * th) (-180 + IZR (i + 1) * th) (-90) 90).
Proof.
  intros Ht H. unfold gen_cells in H. cbn [bind get_bounds] in H. injection H as <-. cbn [grid_indices].
  rewrite globe_col by auto. exists (round_half_even (360 / th)). assert (F : fits (round_half_even (360 / th)) th 360) by (apply rhe_fits; lra).
  split; auto. rewrite !map_map. split.
  - unfold py_range. rewrite !map_length, seq_length. f_equal. lia.
  - intros i Hi. eexists. split; [apply map_nth_error, py_range_nth; lia|]. intros x y.
    rewrite plus_IZR. replace (0 + i)%Z with i by lia. reflexivity.
Qed.

(** ** C79 *)
Lemma valid_bounds m : mk_valid m = true -> max_lon (mk_bnds m) <> -180 -> get_bounds (Some m) = Ok (mk_bnds m).
Proof.
  intros H H'. simpl. rewrite H. destruct (Req_EM_T _ _); [contradiction|]. destruct m as [v [a b c d] P]. reflexivity.
Qed.
Lemma masked_points_sound thi thj m ps g :
  0 < thi -> 0 < thj -> gen_points clip_points thi thj (Some m) = Ok ps -> In g ps ->
  mk_covers m (g_lon g) (g_lat g) /\ exists i j, center thi thj i j g /\ g_id g = point_id i j thi thj.
Proof.
  intros Hi Hj H Hg. unfold gen_points in H. destruct (get_bounds (Some m)) as [b|]; cbn [bind] in H; [|discriminate].
  injection H as <-. apply clip_In in Hg. destruct Hg as [Hg Hc]. split; auto.
  apply in_map_iff in Hg. destruct Hg as [[i j] [<- _]]. exists i, j. split; [|reflexivity]. unfold center. simpl. lra.
Qed.
Lemma masked_points_complete thi thj m ps i j x y :
  0 < thi -> 0 < thj -> mk_valid m = true -> max_lon (mk_bnds m) <> -180 ->
  gen_points clip_points thi thj (Some m) = Ok ps ->
  x = -180 + thi / 2 + IZR i * thi -> y = -90 + thj / 2 + IZR j * thj -> mk_covers m x y ->
  min_lon (mk_bnds m) < x < max_lon (mk_bnds m) -> min_lat (mk_bnds m) < y < max_lat (mk_bnds m) ->
  exists g, In g ps /\ g_lon g = x /\ g_lat g = y /\ g_id g = point_id i j thi thj.
Proof.
  intros Hi Hj Hv H0 H -> -> Hc Hx Hy. unfold gen_points in H. rewrite valid_bounds in H by auto. cbn [bind] in H.
  injection H as <-. exists (grid_point thi thj (i, j)).
  assert (Ex : g_lon (grid_point thi thj (i, j)) = -180 + thi / 2 + IZR i * thi) by (simpl; lra).
  assert (Ey : g_lat (grid_point thi thj (i, j)) = -90 + thj / 2 + IZR j * thj) by (simpl; lra).
  split; [|auto]. apply clip_In. rewrite Ex, Ey. split; [|assumption].
  apply (in_map (grid_point thi thj)). apply grid_indices_In. unfold col_range, row_range. rewrite !py_range_In.
  repeat split.
  - apply range_lo_conv; lra. - apply range_hi_conv; lra. - apply range_lo_conv; lra. - apply range_hi_conv; lra.
Qed.
Lemma masked_points_global thi thj m ps all g :
  0 < thi -> 0 < thj -> regular_mask m -> gen_points clip_points thi thj (Some m) = Ok ps ->
  gen_points clip_points thi thj None = Ok all -> In g ps -> In g all.
Proof.
  intros Hi Hj [Hv [Hb [B1 [B2 [B3 [B4 B5]]]]]] H H' Hg. unfold gen_points in H, H'. rewrite valid_bounds in H by auto.
  cbn [bind get_bounds] in H, H'. injection H as <-. injection H' as <-.
  apply clip_In in Hg. destruct Hg as [Hg _]. apply in_map_iff in Hg. destruct Hg as [[i j] [<- Hij]].
  apply (in_map (grid_point thi thj)). apply grid_indices_In in Hij. apply grid_indices_In.
  rewrite globe_col, globe_row by auto. unfold col_range, row_range in Hij. rewrite !py_range_In in *.
  assert (M : forall lo hi th, 0 < th -> lo <= hi -> (round_half_even (lo / th) <= round_half_even (hi / th))%Z).
  { intros lo hi th Ht Hl. apply rhe_mono. apply Rmult_le_reg_r with th; auto. rewrite !div_eq; auto. }
  pose proof (M 0 (min_lon (mk_bnds m) + 180) thi Hi ltac:(lra)) as M1. pose proof (M (max_lon (mk_bnds m) + 180) 360 thi Hi ltac:(lra)) as M2.
  pose proof (M 0 (min_lat (mk_bnds m) + 90) thj Hj ltac:(lra)) as M3. pose proof (M (max_lat (mk_bnds m) + 90) 180 thj Hj ltac:(lra)) as M4.
  rewrite rhe_zero in M1, M3 by auto. lia.
Qed.
Lemma invalid_raises thi thj m s : mk_valid m = false ->
  gen_points clip_points thi thj (Some m) = Raise ValueError
  /\ gen_cells clip_cells convex_hull thi thj (Some m) s = Raise ValueError
  /\ forall n, fib_points clip_points n (Some m) = Raise ValueError.
Proof. intro H. unfold gen_points, gen_cells, fib_points. simpl. rewrite H. auto. Qed.

(** ** C80 *)
Lemma covered_if_raw thi thj m s cs x y :
  mk_valid m = true -> max_lon (mk_bnds m) <> -180 ->
  gen_cells clip_cells convex_hull thi thj (Some m) s = Ok cs -> mk_covers m x y ->
  (exists ij, In ij (grid_indices thi thj (mk_bnds m) s) /\ rect_set (grid_cell thi thj (mk_bnds m) s ij) x y) ->
  exists c, In c cs /\ sh_set c x y.
Proof.
  intros Hv H0 H Hc [ij [Hij Hx]]. unfold gen_cells in H. rewrite valid_bounds in H by auto. cbn [bind] in H. injection H as <-.
  set (r := mk_shape (cell_id (grid_cell thi thj (mk_bnds m) s ij)) (rect_set (grid_cell thi thj (mk_bnds m) s ij))).
  exists (mk_shape (sh_id r) (convex_hull (fun x y => sh_set r x y /\ mk_covers m x y))). split.
  - apply (in_map (fun r => mk_shape (sh_id r) (convex_hull (sh_set r))) _ (mk_shape (sh_id r) (fun x y => sh_set r x y /\ mk_covers m x y))).
    apply Hcells. exists r. split; [|split; [|reflexivity]].
    + apply in_map_iff. now exists ij.
    + eexists; eexists; split; [exact Hx|exact Hc].
  - apply hull_ext. split; assumption.
Qed.
Lemma inner_range lo hi th X : 0 < th -> lo + th / 2 < X < hi - th / 2 ->
  (round_half_even (lo / th) < round_half_even (hi / th))%Z /\
  IZR (round_half_even (lo / th)) * th <= X <= IZR (round_half_even (hi / th)) * th.
Proof.
  intros Ht HX. pose proof (rhe_bounds (lo / th)) as B1. pose proof (rhe_bounds (hi / th)) as B2.
  pose proof (div_eq lo th Ht) as E1. pose proof (div_eq hi th Ht) as E2.
  set (p := lo / th) in *. set (q := hi / th) in *.
  set (a := round_half_even p) in *. set (b := round_half_even q) in *.
  assert (IZR a * th <= lo + th / 2) by (rewrite <- E1; nra). assert (hi - th / 2 <= IZR b * th) by (rewrite <- E2; nra).
  split; [|lra]. apply lt_IZR. apply Rmult_lt_reg_r with th; lra.
Qed.
Lemma cells_cover_inner thi thj m cs x y :
  0 < thi -> 0 < thj -> mk_valid m = true -> max_lon (mk_bnds m) <> -180 ->
  gen_cells clip_cells convex_hull thi thj (Some m) NoStrips = Ok cs -> mk_covers m x y ->
  min_lon (mk_bnds m) + thi / 2 < x < max_lon (mk_bnds m) - thi / 2 ->
  min_lat (mk_bnds m) + thj / 2 < y < max_lat (mk_bnds m) - thj / 2 ->
  exists c, In c cs /\ sh_set c x y.
Proof.
  intros Hi Hj Hv H0 H Hc Hx Hy. apply (covered_if_raw thi thj m NoStrips); auto.
  destruct (inner_range (min_lon (mk_bnds m) + 180) (max_lon (mk_bnds m) + 180) thi (x + 180) Hi ltac:(lra)) as [N1 N2].
  destruct (inner_range (min_lat (mk_bnds m) + 90) (max_lat (mk_bnds m) + 90) thj (y + 90) Hj ltac:(lra)) as [M1 M2].
  apply union_all; auto. unfold rect. lra.
Qed.
Lemma cells_cover_aligned thi thj m cs (a b c d : Z) x y :
  0 < thi -> 0 < thj -> mk_valid m = true -> bounded_mask m -> max_lon (mk_bnds m) <> -180 ->
  min_lon (mk_bnds m) = -180 + IZR a * thi -> max_lon (mk_bnds m) = -180 + IZR b * thi -> (a < b)%Z ->
  min_lat (mk_bnds m) = -90 + IZR c * thj -> max_lat (mk_bnds m) = -90 + IZR d * thj -> (c < d)%Z ->
  gen_cells clip_cells convex_hull thi thj (Some m) NoStrips = Ok cs -> mk_covers m x y ->
  exists k, In k cs /\ sh_set k x y.
Proof.
  intros Hi Hj Hv Hb H0 Ea Eb Hab Ec Ed Hcd H Hc. apply (covered_if_raw thi thj m NoStrips); auto.
  assert (A : forall lo th k, 0 < th -> lo = IZR k * th -> round_half_even (lo / th) = k).
  { intros lo th k Ht ->. replace (IZR k * th / th) with (IZR k) by (field; lra). apply rhe_integer. }
  pose proof (Hb x y Hc) as B. rewrite Ea, Eb, Ec, Ed in B. apply union_all; auto;
    rewrite ?(A (min_lon (mk_bnds m) + 180) thi a), ?(A (max_lon (mk_bnds m) + 180) thi b),
      ?(A (min_lat (mk_bnds m) + 90) thj c), ?(A (max_lat (mk_bnds m) + 90) thj d) by lra; auto.
Qed.
Lemma lat_strips_cover thi thj m cs x y :
  0 < thj -> mk_valid m = true -> bounded_mask m -> max_lon (mk_bnds m) <> -180 ->
  gen_cells clip_cells convex_hull thi thj (Some m) LatStrips = Ok cs -> mk_covers m x y ->
  min_lat (mk_bnds m) + thj / 2 < y < max_lat (mk_bnds m) - thj / 2 ->
  exists c, In c cs /\ sh_set c x y.
Proof.
  intros Hj Hv Hb H0 H Hc Hy. apply (covered_if_raw thi thj m LatStrips); auto.
  destruct (inner_range (min_lat (mk_bnds m) + 90) (max_lat (mk_bnds m) + 90) thj (y + 90) Hj ltac:(lra)) as [M1 M2].
  destruct (cover1 _ _ thj (y + 90) Hj M1 M2) as [j [J1 J2]]. exists (0%Z, j). split.
  - simpl. apply in_map_iff. exists j. split; auto. apply py_range_In. exact J1.
  - pose proof (Hb x y Hc) as B. unfold rect in B. change (min_lon (mk_bnds m) <= x <= max_lon (mk_bnds m) /\ -90 + IZR j * thj <= y <= -90 + (IZR j + 1) * thj).
    lra.
Qed.
Lemma lon_strips_cover thi thj m cs x y :
  0 < thi -> mk_valid m = true -> bounded_mask m -> max_lon (mk_bnds m) <> -180 ->
  gen_cells clip_cells convex_hull thi thj (Some m) LonStrips = Ok cs -> mk_covers m x y ->
  min_lon (mk_bnds m) + thi / 2 < x < max_lon (mk_bnds m) - thi / 2 ->
  exists c, In c cs /\ sh_set c x y.
Proof.
  intros Hi Hv Hb H0 H Hc Hx. apply (covered_if_raw thi thj m LonStrips); auto.
  destruct (inner_range (min_lon (mk_bnds m) + 180) (max_lon (mk_bnds m) + 180) thi (x + 180) Hi ltac:(lra)) as [M1 M2].
  destruct (cover1 _ _ thi (x + 180) Hi M1 M2) as [i [J1 J2]]. exists (i, 0%Z). split.
  - simpl. apply in_map_iff. exists i. split; auto. apply py_range_In. exact J1.
  - pose proof (Hb x y Hc) as B. unfold rect in B. change (-180 + IZR i * thi <= x <= -180 + (IZR i + 1) * thi /\ min_lat (mk_bnds m) <= y <= max_lat (mk_bnds m)).
    lra.
Qed.
End G.

(** ** The contracts are inhabited *)
Definition some_clip (P : R -> R -> Prop) (l : list gpoint) : list gpoint :=
  filter (fun g => if excluded_middle_informative (P (g_lon g) (g_lat g)) then true else false) l.
Lemma some_clip_ok : clips_points some_clip.
Proof.
  intros P l. exists (filter (fun g => if excluded_middle_informative (P (g_lon g) (g_lat g)) then false else true) l).
  unfold some_clip. repeat split.
  - induction l as [|g l IH]; simpl; auto. destruct (excluded_middle_informative _); simpl.
    + now apply perm_skip.
    + apply Permutation_cons_app. exact IH.
  - apply Forall_forall. intros g Hg. apply filter_In in Hg. destruct Hg as [_ Hg]. destruct (excluded_middle_informative _); auto. discriminate.
  - apply Forall_forall. intros g Hg. apply filter_In in Hg. destruct Hg as [_ Hg]. destruct (excluded_middle_informative _); auto. discriminate.
Qed.
Definition some_clip_cells (P : R -> R -> Prop) (l : list shape) : list shape :=
  map (fun r => mk_shape (sh_id r) (fun x y => sh_set r x y /\ P x y))
    (filter (fun r => if excluded_middle_informative (exists x y, sh_set r x y /\ P x y) then true else false) l).
Lemma some_clip_cells_ok : clips_cells some_clip_cells.
Proof.
  intros P l r'. unfold some_clip_cells. rewrite in_map_iff. split.
  - intros [r [<- Hr]]. apply filter_In in Hr. destruct Hr as [Hr E]. exists r. destruct (excluded_middle_informative _); [auto|discriminate].
  - intros [r [Hr [E ->]]]. exists r. split; auto. apply filter_In. split; auto. destruct (excluded_middle_informative _); [auto|contradiction].
Qed.
Definition some_hull (A : R -> R -> Prop) (x y : R) : Prop := forall B, convex B -> (forall u v, A u v -> B u v) -> B x y.
Lemma some_hull_ok : hulls some_hull.
Proof. intros A x y. reflexivity. Qed.
(** A square mask. *)
Definition square_mask (w e s n : R) : mask := mk_mask true (mk_bounds w s e n) (rect w e s n).
Lemma square_regular w e s n : -180 <= w -> e <= 180 -> e <> -180 -> -90 <= s -> n <= 90 -> regular_mask (square_mask w e s n).
Proof. intros. repeat split; auto; simpl in *; unfold rect in *; tauto. Qed.

(** Distances between neighbours. *)
Lemma step_distance d : EARTH_MEAN_RADIUS * (step d * (PI / 180)) = d.
Proof. unfold step, degrees. pose proof EMR_bounds. pose proof PI_RGT_0. field. lra. Qed.
Lemma step_pos d : 0 < d -> 0 < step d.
Proof.
  intro H. pose proof (step_distance d) as E. pose proof EMR_bounds. pose proof PI_RGT_0. destruct (Rle_or_lt (step d) 0) as [L|L]; [exfalso|exact L].
  assert (0 < EARTH_MEAN_RADIUS) by lra. assert (step d * (PI / 180) <= 0) by (assert (0 < PI / 180) by lra; nra). nra.
Qed.
Lemma neighbours_lemma : forall clip d l, 0 < d -> generate_equally_spaced_points clip d None = Ok l ->
  exists n m, (0 <= n)%Z /\ (0 <= m)%Z /\ length l = (Z.to_nat m * Z.to_nat n)%nat
    /\ forall i j, (0 <= i < n)%Z -> (0 <= j < m)%Z -> exists g, nth_error l (Z.to_nat (j * n + i)) = Some g
       /\ ((j + 1 < m)%Z -> exists g', nth_error l (Z.to_nat ((j + 1) * n + i)) = Some g' /\ g_lon g' = g_lon g
            /\ EARTH_MEAN_RADIUS * ((g_lat g' - g_lat g) * (PI / 180)) = d)
       /\ ((i + 1 < n)%Z -> exists g', nth_error l (Z.to_nat (j * n + (i + 1))) = Some g' /\ g_lat g' = g_lat g
            /\ EARTH_MEAN_RADIUS * ((g_lon g' - g_lon g) * (PI / 180)) = d).
Proof.
  intros clip d l D E. destruct (global_points clip (step d) (step d) l (step_pos d D) (step_pos d D) E) as (n & m & F1 & F2 & L & H).
  exists n, m. split; [apply F1|]. split; [apply F2|]. split; [exact L|]. intros i j I J. destruct (H i j I J) as (g & G & X & Y). exists g. split; [exact G|]. split.
  - intro M. destruct (H i (j + 1)%Z I ltac:(lia)) as (g' & G' & X' & Y'). exists g'. split; [exact G'|]. split; [congruence|].
    rewrite Y, Y', plus_IZR. eapply eq_trans; [|apply step_distance]. ring.
  - intro M. destruct (H (i + 1)%Z j ltac:(lia) J) as (g' & G' & X' & Y'). exists g'. split; [exact G'|]. split; [congruence|].
    rewrite X, X', plus_IZR. eapply eq_trans; [|apply step_distance]. ring.
Qed.
Lemma cell_size_lemma : forall clipc hull d cs c, 0 < d -> generate_equally_spaced_cells clipc hull d None NoStrips = Ok cs -> In c cs ->
  exists w e s n, same_set (sh_set c) (rect w e s n) /\ EARTH_MEAN_RADIUS * ((e - w) * (PI / 180)) = d /\ EARTH_MEAN_RADIUS * ((n - s) * (PI / 180)) = d.
Proof.
  intros clipc hull d cs c D E I. destruct (cell_position (fun _ l => l) clipc hull (step d) (step d) cs (step_pos d D) (step_pos d D) E) as (n & m & (F1 & _) & (F2 & _) & L & H).
  apply In_nth_error in I. destruct I as (k & K). assert (KL : (k < Z.to_nat m * Z.to_nat n)%nat) by (rewrite <- L; apply nth_error_Some; congruence).
  assert (N : (0 < n)%Z) by nia. assert (KZ : (0 <= Z.of_nat k < m * n)%Z) by nia.
  destruct (H (Z.of_nat k mod n)%Z (Z.of_nat k / n)%Z) as (c' & C & S0).
  - apply Z.mod_pos_bound. exact N.
  - split; [apply Z.div_pos; lia|]. apply Z.div_lt_upper_bound; lia.
  - replace (Z.of_nat k / n * n + Z.of_nat k mod n)%Z with (Z.of_nat k) in C by (pose proof (Z.div_mod (Z.of_nat k) n); lia). rewrite Nat2Z.id in C. rewrite K in C. injection C as <-.
    do 4 eexists. split; [exact S0|]. rewrite !plus_IZR. split; (eapply eq_trans; [|apply step_distance]); ring.
Qed.
