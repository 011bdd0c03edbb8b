(** Bounds of polygons in geographic coordinates after split_polygon. *)
From Coq Require Import Reals ZArith List Bool Lra Lia Sorting.Permutation.
From Verif Require Import Base BaseFacts RBase RFacts Poly_Model Poly_Spec Poly_Proofs Poly_Proofs2 Poly_Proofs3.
Import ListNotations.
Open Scope R_scope.

Definition globe_box : poly -> Prop := in_box (-180) 180 (-90) 90.

(** ** Around a pole *)
Lemma pole_lat_bound l a b : (forall c, In c l -> -180 <= cx c <= 180) -> (forall c, In c l -> a <= cy c <= b) -> a <= 0 <= b -> a <= pole_lat l <= b.
Proof.
  intros X Y Z. destruct l as [|c0 r]; [exact Z|]. unfold pole_lat.
  assert (L : In (last (c0 :: r) c0) (c0 :: r)).
  { clear. assert (H : forall (d : coord) l, In (last (d :: l) c0) (d :: l)).
    { intros d l. revert d. induction l as [|e l IH]; intro d; [now left|]. right. exact (IH e). }
    apply H. }
  set (cn := last (c0 :: r) c0) in *. pose proof (X _ L) as X1. pose proof (X c0 (or_introl eq_refl)) as X0.
  pose proof (Y _ L) as Y1. pose proof (Y c0 (or_introl eq_refl)) as Y0. unfold np_interp. cbn [last interp_from].
  destruct (Rltb (cx c0 + 180) 180); [exact Y0|]. destruct (Rltb 180 (cx cn)); [exact Y1|].
  destruct (Rleb (cx c0 + 180) 180) eqn:E; [exact Y0|]. destruct (Req_EM_T (cx cn) 180) as [E2|E2]; [exact Y1|]. apply Rleb_false in E.
  set (t := (180 - cx cn) / (cx c0 + 180 - cx cn)).
  assert (T : 0 <= t <= 1).
  { unfold t. split; [apply Rle_mult_inv_pos; lra|]. apply Rmult_le_reg_r with (cx c0 + 180 - cx cn); [lra|].
    unfold Rdiv. rewrite Rmult_assoc, Rinv_l by lra. lra. }
  replace ((cy c0 - cy cn) / (cx c0 + 180 - cx cn) * (180 - cx cn) + cy cn) with (t * cy c0 + (1 - t) * cy cn) by (unfold t; field; lra).
  assert (0 <= t * (cy c0 - a)) by (apply Rmult_le_pos; lra). assert (0 <= t * (b - cy c0)) by (apply Rmult_le_pos; lra).
  assert (0 <= (1 - t) * (cy cn - a)) by (apply Rmult_le_pos; lra). assert (0 <= (1 - t) * (b - cy cn)) by (apply Rmult_le_pos; lra). lra.
Qed.
Lemma pole_polygon_box p : globe_box p -> globe_box (pole_polygon p).
Proof.
  intros [X Y].
  assert (I : forall c, In c (pole_coords p) -> In c (p_ext p)).
  { intros c C. apply (Permutation_in _ (sort_lon_perm _)) in C. clear -C. induction (p_ext p) as [|d l IH]; [destruct C|].
    cbn in C. destruct l; [destruct C|]. destruct C as [<-|C]; [now left|right; now apply IH]. }
  assert (LA : -90 <= pole_lat (pole_coords p) <= 90) by (apply pole_lat_bound; [intros c C; now apply X, I|intros c C; now apply Y, I|lra]).
  assert (N : n_s (pole_coords p) = 1 \/ n_s (pole_coords p) = -1) by (unfold n_s; destruct (Rltb _ _); auto).
  split; intros c C; unfold pole_polygon in C; cbn [p_ext] in C; apply in_app_iff in C;
    (destruct C as [C|C]; [|apply in_app_iff in C; destruct C as [C|C]; [first [now apply X, I|now apply Y, I]|]]);
    cbn [In] in C; repeat (destruct C as [<-|C]; [cbn [cx cy xy]; destruct N as [N|N]; rewrite ?N; lra|]); destruct C.
Qed.

Section Globe.
Variables (iv : shape -> bool) (mv : shape -> list piece + shape) (cr : piece -> coord * coord -> bool) (pe : piece -> piece -> bool)
  (sp : piece -> coord * coord -> list piece) (so : list R -> bool) (ss : list (R * R) -> list (R * R)).
Hypothesis SB : splits_box sp.

Lemma pole_parts p : globe_box p -> no_crossing (map cx (p_ext p)) = false -> so (map cx (p_ext p)) = true ->
  exists t, split_antimeridian iv sp so ss (SPoly p) = Ok t
    /\ forall q, In q (geoms t) -> in_box (-180) 0 (-90) 90 q \/ in_box 0 180 (-90) 90 q.
Proof.
  intros G NC SO. cbn. unfold split_antimeridian_poly. rewrite NC, SO. eexists. split; [reflexivity|].
  intros q Q. apply convert_in in Q. destruct Q as (g & Hg & Q). destruct SB as (_ & _ & _ & B4).
  destruct (B4 (PShape (SPoly (pole_polygon p))) 0 (-180) 180 (-180) 180 (-90) 90 g) as [M|M];
    [lra|rewrite Rmin_left; lra|rewrite Rmax_right; lra|now apply piece_single, pole_polygon_box|exact Hg|left; now apply M|right; now apply M].
Qed.

Lemma unwrap_lat la lb p : lat_within la lb p -> lat_within la lb (unwrap_poly ss p).
Proof. intros Y c C. cbn in C. apply in_map_iff in C. destruct C as ([d k] & <- & D). cbn. apply Y. now apply in_combine_l in D. Qed.

Lemma wrap_anti_lat p t la lb : lat_within la lb p -> wrap_antimeridian_poly iv p = Ok t -> forall q, In q (geoms t) -> lat_within la lb q.
Proof.
  intros Y. unfold wrap_antimeridian_poly.
  assert (M : forall k, lat_within la lb (move_poly k p)).
  { intros k c C. cbn in C. apply in_map_iff in C. destruct C as (d & <- & D). cbn. now apply Y. }
  destruct (forallb _ _); [intros [= <-] q [<-|[]]; exact Y|].
  destruct (forallb (fun c => Rleb (cx c) (-180)) (p_ext p)); destruct (forallb (fun c => Rleb 180 (cx c)) (p_ext p));
    try (destruct (iv (SPoly _))); intros E q Q; try discriminate; injection E as <-; destruct Q as [<-|[]]; auto.
Qed.

Hypothesis MI : move_invariant iv.
Hypothesis VP : forall g d q, In q (polygons_of (sp g d)) -> iv (SPoly q) = true.

Lemma anti_box p : globe_box p -> so (map cx (p_ext p)) = true \/ one_way p ->
  exists t, split_antimeridian_poly iv sp so ss p = Ok t /\ forall q, In q (geoms t) -> globe_box q.
Proof.
  intros G H. destruct (no_crossing (map cx (p_ext p))) eqn:NC.
  { exists (SPoly p). unfold split_antimeridian_poly. rewrite NC. split; [reflexivity|]. intros q [<-|[]]. exact G. }
  destruct (so (map cx (p_ext p))) eqn:SO.
  - destruct (pole_parts p G NC SO) as (t & E & K). exists t. split; [exact E|]. intros q Q.
    destruct (K q Q) as [[A B]|[A B]]; (split; [|exact B]); intros c C; specialize (A c C); lra.
  - destruct H as [H|H]; [discriminate|]. unfold split_antimeridian_poly. rewrite NC, SO.
    set (d := shift_dir (shifts (map cx (p_ext p)))). unfold wrap_antimeridian. apply over_parts_bound. intros q Q. apply convert_in in Q. destruct Q as (g & Hg & Q).
    destruct G as [W Y]. destruct SB as (B1 & _ & _ & B4).
    assert (D : (lon_within (-180) 180 q \/ lon_within (-540) (-180) q \/ lon_within 180 540 q) /\ lat_within (-90) 90 q).
    { assert (P : forall lo hi, lon_within lo hi (unwrap_poly ss p) -> piece_all (in_box lo hi (-90) 90) (PShape (SPoly (unwrap_poly ss p)))).
      { intros lo hi L. apply piece_single. split; [exact L|now apply unwrap_lat]. }
      unfold d, shift_dir in Hg. destruct (existsb _ _) eqn:E.
      - apply existsb_shift in E. destruct E as (k & I & L). destruct H as [K|K]; [|specialize (K k I); lia].
        assert (UW : lon_within (-540) 180 (unwrap_poly ss p)). { eapply unwrap_ext_lon; [exact W|exact K|]. intros k' x [-> | ->] X; cbn; lra. }
        destruct (B4 (PShape (SPoly (unwrap_poly ss p))) (-180) (-180) 180 (-540) 180 (-90) 90 g ltac:(lra) ltac:(rewrite Rmin_left; lra) ltac:(rewrite Rmax_right; lra) (P _ _ UW) Hg) as [M|M];
          destruct (M q Q) as [M1 M2]; (split; [|exact M2]); auto.
      - assert (NK : forall k, In k (shifts (map cx (p_ext p))) -> k = 0%Z \/ k = (-1)%Z).
        { intros k I. destruct H as [K|K]; [|now apply K]. destruct (K k I) as [-> | ->]; [now left|].
          assert (existsb (fun k => (1 <=? k)%Z) (shifts (map cx (p_ext p))) = true) by (apply existsb_shift; exists 1%Z; split; [exact I|lia]). congruence. }
        assert (UW : lon_within (-180) 540 (unwrap_poly ss p)). { eapply unwrap_ext_lon; [exact W|exact NK|]. intros k' x [-> | ->] X; cbn; lra. }
        destruct (B4 (PShape (SPoly (unwrap_poly ss p))) 180 (-180) 180 (-180) 540 (-90) 90 g ltac:(lra) ltac:(rewrite Rmin_left; lra) ltac:(rewrite Rmax_right; lra) (P _ _ UW) Hg) as [M|M];
          destruct (M q Q) as [M1 M2]; (split; [|exact M2]); auto. }
    assert (VQ : iv (SPoly q) = true).
    { apply (VP (PShape (SPoly (unwrap_poly ss p))) (xy d (-180), xy d 180)). apply polygons_in. exists g. now split. }
    destruct D as [D DY]. destruct D as [D|D].
    + exists (SPoly q). split; [exact (wrap_antimeridian_inside iv q D)|]. intros r [<-|[]]. now split.
    + destruct (wrap_antimeridian_outside iv q MI VQ D) as (r & E & _ & L). exists (SPoly r). split; [exact E|].
      intros r' R'. pose proof (wrap_anti_lat q _ _ _ DY E r' R') as LR. destruct R' as [<-|[]]. now split.
Qed.

Hypothesis RB : repairs_box mv.

Lemma split_globe s : (forall p, In p (geoms s) -> globe_box p /\ (so (map cx (p_ext p)) = true \/ one_way p)) ->
  exists t, split_polygon iv mv cr pe sp so ss s = Ok t /\ forall q, In q (geoms t) -> globe_box q.
Proof.
  intro H. unfold split_polygon.
  destruct (over_parts_bound (split_antimeridian_poly iv sp so ss) s globe_box) as (t & E & T).
  { intros p P. destruct (H p P). now apply anti_box. }
  unfold split_antimeridian. rewrite E. cbn [bind].
  assert (SO : exists u, split_south iv cr pe sp t = Ok u /\ forall q, In q (geoms u) -> globe_box q).
  { apply over_parts_bound. intros p P. exists (SPoly p). unfold split_south_poly. destruct (T p P) as [A B].
    replace (forallb (fun c => Rleb (-90) (cy c)) (p_ext p)) with true; [split; [reflexivity|]; intros q [<-|[]]; now split|].
    symmetry. apply forallb_forall. intros c C. apply Rleb_spec. now apply B. }
  destruct SO as (u & EU & U). rewrite EU. cbn [bind].
  assert (NO : exists v, split_north iv cr pe sp u = Ok v /\ forall q, In q (geoms v) -> globe_box q).
  { apply over_parts_bound. intros p P. exists (SPoly p). unfold split_north_poly. destruct (U p P) as [A B].
    replace (forallb (fun c => Rleb (cy c) 90) (p_ext p)) with true; [split; [reflexivity|]; intros q [<-|[]]; now split|].
    symmetry. apply forallb_forall. intros c C. apply Rleb_spec. now apply B. }
  destruct NO as (v & EV & V). rewrite EV. cbn [bind]. destruct (iv v); [now exists v|].
  pose proof (RB v _ _ _ _ V) as K. destruct (mv v) as [l|s4].
  - eexists. split; [reflexivity|]. intros q Q. apply K. now rewrite convert_geoms in Q.
  - now exists s4.
Qed.
End Globe.

(** ** A polygon across the antimeridian and one around the pole *)
Lemma ex_globe : let p := mk_poly (box 170 (-170) 0 10) [] in globe_box p /\ no_crossing (map cx (p_ext p)) = false /\ one_way p.
Proof.
  cbv zeta. split; [split; intros c C; apply box_in in C; destruct C as [[H|H] [K|K]]; rewrite ?H, ?K; lra|]. split; [exact ex_crossing|].
  right. cbn [p_ext]. rewrite ex_shifts. intros k K. cbn in K. lia.
Qed.
