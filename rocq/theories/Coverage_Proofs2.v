(** Proofs about collection and aggregation. *)
From Coq Require Import String ZArith QArith List Bool Sorting.Sorted Sorting.Permutation Lia Lqa.
From Verif Require Import Base BaseFacts Coverage_Model Coverage_Spec.
Import ListNotations.
Open Scope Z_scope.

(** ** The "obs" numbers *)
Fixpoint nums (n m : Z) (rows : list obs) : list Z :=
  match rows with
  | [] => []
  | y :: r => let n' := n + (if m <? o_start y then 1 else 0) in
              n' :: nums n' (Z.max m (o_end y)) r
  end.

Fixpoint flags (m : Z) (rows : list obs) : list bool :=
  match rows with
  | [] => []
  | y :: r => (m <? o_start y) :: flags (Z.max m (o_end y)) r
  end.

Lemma flags_zip : forall rows m0 e0,
  zip_with gt_opt (map o_start rows)
    (cummax_from (Some m0) (map Some (removelast (e0 :: map o_end rows))))
  = flags (Z.max m0 e0) rows.
Proof.
  induction rows as [|y r IH]; intros m0 e0; [reflexivity|].
  cbn [map]. change (removelast (e0 :: o_end y :: map o_end r))
    with (e0 :: removelast (o_end y :: map o_end r)).
  cbn [map cummax_from]. unfold zip_with in *. cbn [combine map fst snd gt_opt flags].
  f_equal. apply IH.
Qed.

Lemma cumsum_flags : forall rows n m, cumsum_from n (flags m rows) = nums n m rows.
Proof.
  induction rows as [|y r IH]; intros n m; simpl; [reflexivity|]. f_equal. apply IH.
Qed.

Lemma flags_zip_none : forall rows e0,
  zip_with gt_opt (map o_start rows)
    (cummax_from None (map Some (removelast (e0 :: map o_end rows))))
  = flags e0 rows.
Proof.
  intros [|y r] e0; [reflexivity|].
  cbn [map]. change (removelast (e0 :: o_end y :: map o_end r))
    with (e0 :: removelast (o_end y :: map o_end r)).
  cbn [map cummax_from]. unfold zip_with in *. cbn [combine map fst snd gt_opt flags].
  f_equal. apply flags_zip.
Qed.

Lemma obs_numbers_cons x rows : obs_numbers (x :: rows) = 0 :: nums 0 (o_end x) rows.
Proof.
  unfold obs_numbers. cbn [map shift]. cbn [cummax_from].
  unfold zip_with. cbn [combine map fst snd gt_opt cumsum_from].
  change (0 + 0) with 0. f_equal.
  rewrite <- cumsum_flags. f_equal.
  rewrite <- flags_zip_none. unfold zip_with. reflexivity.
Qed.

(** ** Groups are the clusters *)
Fixpoint clusters_from (g : list obs) (m : Z) (rows : list obs) : list (list obs) :=
  match rows with
  | [] => [g]
  | y :: r => if m <? o_start y
              then g :: clusters_from [y] (Z.max m (o_end y)) r
              else clusters_from (g ++ [y]) (Z.max m (o_end y)) r
  end.
Definition clusters (rows : list obs) : list (list obs) :=
  match rows with [] => [] | x :: r => clusters_from [x] (o_end x) r end.

Lemma group_keys_app {A} (key : A -> Z) a b :
  (forall x y, In x a -> In y b -> key x < key y) ->
  group_keys key (a ++ b) = group_keys key a ++ group_keys key b.
Proof.
  intro H. apply sorted_lt_ext.
  - apply group_keys_sorted.
  - apply StronglySorted_app; try apply group_keys_sorted.
    intros x y Hx Hy. apply group_keys_in in Hx as [x' [Hx <-]].
    apply group_keys_in in Hy as [y' [Hy <-]]. auto.
  - intro k. rewrite in_app_iff, !group_keys_in. split.
    + intros [x [Hx <-]]. apply in_app_iff in Hx as [Hx|Hx]; [left|right]; eauto.
    + intros [[x [Hx <-]]|[x [Hx <-]]]; exists x; rewrite in_app_iff; auto.
Qed.

Lemma filter_none {A} (f : A -> bool) l : (forall x, In x l -> f x = false) -> filter f l = [].
Proof.
  induction l as [|x r IH]; intro H; simpl; [reflexivity|].
  rewrite (H x) by now left. apply IH. intros; apply H; now right.
Qed.
Lemma filter_all {A} (f : A -> bool) l : (forall x, In x l -> f x = true) -> filter f l = l.
Proof.
  induction l as [|x r IH]; intro H; simpl; [reflexivity|].
  rewrite (H x) by now left. f_equal. apply IH. intros; apply H; now right.
Qed.

Lemma group_by_app {A} (key : A -> Z) a b :
  (forall x y, In x a -> In y b -> key x < key y) ->
  group_by key (a ++ b) = group_by key a ++ group_by key b.
Proof.
  intro H. unfold group_by. rewrite group_keys_app by assumption. rewrite map_app. f_equal.
  - apply map_ext_in. intros k Hk. apply group_keys_in in Hk as [x [Hx <-]].
    unfold group_rows. rewrite filter_app.
    rewrite (filter_none _ b); [apply app_nil_r|].
    intros y Hy. apply Z.eqb_neq. specialize (H x y Hx Hy). lia.
  - apply map_ext_in. intros k Hk. apply group_keys_in in Hk as [y [Hy <-]].
    unfold group_rows. rewrite filter_app.
    rewrite (filter_none _ a); [reflexivity|].
    intros x Hx. apply Z.eqb_neq. specialize (H x y Hx Hy). lia.
Qed.

Lemma group_by_const {A} (key : A -> Z) k l :
  l <> [] -> (forall x, In x l -> key x = k) -> group_by key l = [l].
Proof.
  intros NE H. unfold group_by.
  assert (group_keys key l = [k]) as ->.
  { apply sorted_lt_ext; [apply group_keys_sorted|repeat constructor|].
    intro z. rewrite group_keys_in. split.
    - intros [x [Hx <-]]. left. symmetry; auto.
    - intros [<-|[]]. destruct l as [|x r]; [congruence|]. exists x.
      split; [now left|apply H; now left]. }
  simpl. f_equal. unfold group_rows. apply filter_all. intros x Hx. apply Z.eqb_eq; auto.
Qed.

Lemma nums_ge : forall rows n m k, In k (nums n m rows) -> n <= k.
Proof.
  induction rows as [|y r IH]; simpl; intros n m k H; [destruct H|].
  destruct H as [<-|H].
  - destruct (m <? o_start y); lia.
  - apply IH in H. destruct (m <? o_start y); lia.
Qed.

Lemma in_combine_fst {A B} (l : list A) (m : list B) p :
  In p (combine l m) -> In (fst p) l.
Proof. destruct p. apply in_combine_l. Qed.

Lemma group_clusters : forall rows g n m,
  g <> [] ->
  map (map snd) (group_by fst (map (pair n) g ++ combine (nums n m rows) rows))
  = clusters_from g m rows.
Proof.
  induction rows as [|y r IH]; intros g n m NE.
  - simpl. rewrite app_nil_r. rewrite (group_by_const fst n).
    + simpl. rewrite map_map. simpl. now rewrite map_id.
    + destruct g; [congruence|discriminate].
    + intros x Hx. apply in_map_iff in Hx as [o [<- _]]. reflexivity.
  - simpl. destruct (Z.ltb_spec m (o_start y)).
    + rewrite group_by_app.
      * rewrite map_app. rewrite (group_by_const fst n).
        { simpl. rewrite map_map. simpl. rewrite map_id. f_equal.
          apply (IH [y] (n + 1)). discriminate. }
        { destruct g; [congruence|discriminate]. }
        { intros x Hx. apply in_map_iff in Hx as [o [<- _]]. reflexivity. }
      * intros a b Ha Hb. apply in_map_iff in Ha as [o [<- _]]. simpl.
        destruct Hb as [<-|Hb]; [simpl; lia|].
        apply in_combine_fst, nums_ge in Hb. lia.
    + replace (n + 0) with n by lia.
      rewrite <- (IH (g ++ [y]) n (Z.max m (o_end y))).
      * f_equal. f_equal. rewrite map_app, <- app_assoc. reflexivity.
      * destruct g; discriminate.
Qed.

Lemma groups_are_clusters rows :
  map (map snd) (group_by fst (combine (obs_numbers rows) rows)) = clusters rows.
Proof.
  destruct rows as [|x r]; [reflexivity|].
  rewrite obs_numbers_cons. simpl clusters.
  rewrite <- (group_clusters r [x] 0 (o_end x)) by discriminate. reflexivity.
Qed.

(** ** Minimum and maximum of a group *)
Lemma min_of_spec d l : is_min (min_of d l) (d :: l).
Proof.
  unfold min_of. induction l as [|x r IH]; simpl.
  - split; [now left|repeat constructor; lia].
  - destruct IH as [H1 H2]. split.
    + destruct (Z.min_spec x (fold_right Z.min d r)) as [[_ ->]|[_ ->]].
      * right; now left.
      * destruct H1 as [H1|H1]; [now left|right; now right].
    + inversion H2; subst. constructor; [lia|]. constructor; [lia|].
      eapply Forall_impl; [|exact H4]. simpl; intros; lia.
Qed.

Lemma max_of_spec d l : is_max (max_of d l) (d :: l).
Proof.
  unfold max_of. induction l as [|x r IH]; simpl.
  - split; [now left|repeat constructor; lia].
  - destruct IH as [H1 H2]. split.
    + destruct (Z.max_spec x (fold_right Z.max d r)) as [[_ ->]|[_ ->]].
      * destruct H1 as [H1|H1]; [now left|right; now right].
      * right; now left.
    + inversion H2; subst. constructor; [lia|]. constructor; [lia|].
      eapply Forall_impl; [|exact H4]. simpl; intros; lia.
Qed.

Lemma is_min_unique m m' l : is_min m l -> is_min m' l -> m = m'.
Proof.
  intros [H1 H2] [H3 H4]. rewrite Forall_forall in H2, H4.
  specialize (H2 _ H3). specialize (H4 _ H1). lia.
Qed.
Lemma is_max_unique m m' l : is_max m l -> is_max m' l -> m = m'.
Proof.
  intros [H1 H2] [H3 H4]. rewrite Forall_forall in H2, H4.
  specialize (H2 _ H3). specialize (H4 _ H1). lia.
Qed.
Lemma is_min_head d m l : In d l -> is_min m (d :: l) -> is_min m l.
Proof.
  intros Hd [H1 H2]. inversion H2; subst. split; [|assumption].
  destruct H1 as [<-|H1]; assumption.
Qed.
Lemma is_max_head d m l : In d l -> is_max m (d :: l) -> is_max m l.
Proof.
  intros Hd [H1 H2]. inversion H2; subst. split; [|assumption].
  destruct H1 as [<-|H1]; assumption.
Qed.

(** ** Clusters *)
Definition ivl (o : obs) : Z * Z := (o_start o, o_end o).

(** A cluster spans exactly the closed interval from its first start to its
    last end. *)
Definition span (g : list obs) (s m : Z) : Prop :=
  g <> [] /\ is_min s (map o_start g) /\ is_max m (map o_end g) /\ s <= m
  /\ forall t, covered (map ivl g) t <-> (inject_Z s <= t)%Q /\ (t <= inject_Z m)%Q.

Lemma covered_app a b t : covered (a ++ b) t <-> covered a t \/ covered b t.
Proof.
  unfold covered. split.
  - intros [i [Hi H]]. apply in_app_iff in Hi as [Hi|Hi]; [left|right]; eauto.
  - intros [[i [Hi H]]|[i [Hi H]]]; exists i; rewrite in_app_iff; auto.
Qed.

Lemma covered_one i t :
  covered [i] t <-> (inject_Z (fst i) <= t)%Q /\ (t <= inject_Z (snd i))%Q.
Proof.
  unfold covered. split.
  - intros [j [[<-|[]] H]]. exact H.
  - intro H. exists i. split; [now left|exact H].
Qed.

Lemma span_one o : o_start o <= o_end o -> span [o] (o_start o) (o_end o).
Proof.
  intro H. split; [discriminate|]. split; [|split; [|split]].
  - split; [now left|repeat constructor; lia].
  - split; [now left|repeat constructor; lia].
  - assumption.
  - intro t. simpl. apply covered_one.
Qed.

Lemma inject_Z_max a b : (inject_Z (Z.max a b) == inject_Z a \/ inject_Z (Z.max a b) == inject_Z b)%Q.
Proof. destruct (Z.max_spec a b) as [[_ ->]|[_ ->]]; [right|left]; reflexivity. Qed.

Lemma span_snoc g s m y :
  span g s m -> s <= o_start y -> o_start y <= m -> o_start y <= o_end y ->
  span (g ++ [y]) s (Z.max m (o_end y)).
Proof.
  intros [NE [Hmin [Hmax [Hsm Hc]]]] H1 H2 H3.
  split; [destruct g; discriminate|]. split; [|split; [|split]].
  - destruct Hmin as [Ha Hb]. rewrite map_app. split.
    + apply in_app_iff; now left.
    + apply Forall_app; split; [assumption|]. repeat constructor. assumption.
  - destruct Hmax as [Ha Hb]. rewrite map_app. split.
    + apply in_app_iff. destruct (Z.max_spec m (o_end y)) as [[_ ->]|[_ ->]].
      * right; now left.
      * now left.
    + apply Forall_app; split.
      * eapply Forall_impl; [|exact Hb]. simpl; intros; lia.
      * repeat constructor. simpl. lia.
  - lia.
  - intro t. rewrite map_app, covered_app, Hc. change (map ivl [y]) with [ivl y].
    rewrite covered_one. simpl.
    assert (Q1 : (inject_Z s <= inject_Z (o_start y))%Q) by now rewrite <- Zle_Qle.
    assert (Q2 : (inject_Z (o_start y) <= inject_Z m)%Q) by now rewrite <- Zle_Qle.
    assert (Q3 : (inject_Z m <= inject_Z (Z.max m (o_end y)))%Q) by (rewrite <- Zle_Qle; lia).
    assert (Q4 : (inject_Z (o_end y) <= inject_Z (Z.max m (o_end y)))%Q) by (rewrite <- Zle_Qle; lia).
    destruct (inject_Z_max m (o_end y)) as [E|E].
    + split; intros H.
      * destruct H as [[? ?]|[? ?]]; split; lra.
      * left. split; lra.
    + split; intros H.
      * destruct H as [[? ?]|[? ?]]; split; lra.
      * destruct (Qlt_le_dec t (inject_Z (o_start y))); [left|right]; split; lra.
Qed.

Lemma clusters_from_concat : forall rows g m,
  concat (clusters_from g m rows) = g ++ rows.
Proof.
  induction rows as [|y r IH]; intros g m; simpl.
  - reflexivity.
  - destruct (m <? o_start y); simpl; rewrite IH; [reflexivity|].
    now rewrite <- app_assoc.
Qed.

Lemma clusters_concat rows : concat (clusters rows) = rows.
Proof. destruct rows; [reflexivity|]. simpl. now rewrite clusters_from_concat. Qed.

Lemma clusters_from_spans : forall rows g s m,
  span g s m -> StronglySorted (key_le o_start) rows ->
  Forall (fun o => s <= o_start o) rows -> proper rows ->
  Forall (fun g' => exists s' m', span g' s' m') (clusters_from g m rows).
Proof.
  induction rows as [|y r IH]; intros g s m Hg HS Hs HP; simpl.
  - constructor; [eauto|constructor].
  - inversion HS; subst. inversion Hs; subst. inversion HP; subst.
    assert (Hr : Forall (fun o => o_start y <= o_start o) r) by exact H2.
    destruct (Z.ltb_spec m (o_start y)).
    + constructor; [eauto|].
      replace (Z.max m (o_end y)) with (o_end y) by lia.
      eapply IH; eauto. apply span_one; assumption.
    + apply (IH _ s); auto. apply span_snoc; assumption.
Qed.

Lemma clusters_spans rows :
  StronglySorted (key_le o_start) rows -> proper rows ->
  Forall (fun g => exists s m, span g s m) (clusters rows).
Proof.
  destruct rows as [|x r]; intros HS HP; simpl; [constructor|].
  inversion HS; subst. inversion HP; subst.
  eapply clusters_from_spans; eauto. now apply span_one.
Qed.

(** Later clusters start after every earlier observation has ended. *)
Definition before (g1 g2 : list obs) : Prop :=
  forall a b, In a g1 -> In b g2 -> o_end a < o_start b.

Lemma clusters_from_before : forall rows g m,
  (forall a, In a g -> o_end a <= m) ->
  StronglySorted (key_le o_start) rows -> g <> [] ->
  StronglySorted before (clusters_from g m rows)
  /\ forall g', In g' (clusters_from g m rows) ->
       (exists tl, g' = g ++ tl) \/ (forall b, In b g' -> m < o_start b).
Proof.
  induction rows as [|y r IH]; intros g m Hm HS NE; simpl.
  - split; [repeat constructor|]. intros g' [<-|[]]. left. exists []. now rewrite app_nil_r.
  - inversion HS; subst. destruct (Z.ltb_spec m (o_start y)).
    + destruct (IH [y] (Z.max m (o_end y))) as [IH1 IH2].
      { intros a [<-|[]]. lia. } { assumption. } { discriminate. }
      assert (HB : Forall (before g) (clusters_from [y] (Z.max m (o_end y)) r)).
      { apply Forall_forall. intros g' Hg' a b Ha Hb. specialize (Hm _ Ha).
        enough (m < o_start b) by lia.
        assert (In b ([y] ++ r)).
        { rewrite <- (clusters_from_concat r [y] (Z.max m (o_end y))).
          apply in_concat. eauto. }
        destruct H0 as [<-|H0]; [assumption|].
        rewrite Forall_forall in H2. specialize (H2 _ H0). unfold key_le in H2. lia. }
      split.
      * constructor; assumption.
      * intros g' [<-|Hg']; [left; exists []; now rewrite app_nil_r|].
        right. intros b Hb.
        assert (In b ([y] ++ r)).
        { rewrite <- (clusters_from_concat r [y] (Z.max m (o_end y))).
          apply in_concat. eauto. }
        destruct H0 as [<-|H0]; [assumption|].
        rewrite Forall_forall in H2. specialize (H2 _ H0). unfold key_le in H2. lia.
    + destruct (IH (g ++ [y]) (Z.max m (o_end y))) as [IH1 IH2].
      { intros a Ha. apply in_app_iff in Ha as [Ha|[<-|[]]]; [specialize (Hm _ Ha); lia|lia]. }
      { assumption. } { destruct g; discriminate. }
      split; [assumption|]. intros g' Hg'. destruct (IH2 _ Hg') as [[tl ->]|Hb].
      * left. exists ([y] ++ tl). now rewrite app_assoc.
      * right. intros b Hb'. specialize (Hb _ Hb'). lia.
Qed.

Lemma clusters_before rows :
  StronglySorted (key_le o_start) rows -> StronglySorted before (clusters rows).
Proof.
  destruct rows as [|x r]; intro HS; simpl; [constructor|]. inversion HS; subst.
  apply clusters_from_before; auto; [|discriminate].
  intros a [<-|[]]. lia.
Qed.

Lemma clusters_nonempty rows : Forall (fun g => g <> []) (clusters rows).
Proof.
  destruct rows as [|x r]; simpl; [constructor|].
  assert (forall r g m, g <> [] -> Forall (fun g => g <> []) (clusters_from g m r)) as H.
  { clear. induction r as [|y r IH]; intros g m Hg; simpl; [repeat constructor; auto|].
    destruct (m <? o_start y); [constructor; [assumption|]|]; apply IH; [discriminate|].
    destruct g; discriminate. }
  apply H. discriminate.
Qed.

(** ** The dissolved record of a cluster *)
Definition dis (g : list obs) : agg :=
  match dissolve_obs g with
  | Some a => a
  | None => mk_agg 0 "" "" 0 0%Q 0 0 None
  end.

Lemma dis_fields g :
  g <> [] ->
  dissolve_obs g = Some (dis g)
  /\ is_min (a_start (dis g)) (map o_start g)
  /\ is_max (a_end (dis g)) (map o_end g)
  /\ a_access (dis g) = a_end (dis g) - a_start (dis g)
  /\ a_sat (dis g) = String.concat ", " (map o_sat g)
  /\ a_inst (dis g) = String.concat ", " (map o_inst g)
  /\ a_epoch (dis g) = mean_Z (map o_epoch g)
  /\ (exists x, In x g /\ a_point (dis g) = o_point x).
Proof.
  intro NE. destruct g as [|x r]; [congruence|].
  split; [reflexivity|].
  split; [|split; [|split; [reflexivity|split; [reflexivity|split; [reflexivity|split; [reflexivity|]]]]]].
  - apply (is_min_head (o_start x)); [now left|]. apply (min_of_spec (o_start x) (map o_start (x :: r))).
  - apply (is_max_head (o_end x)); [now left|]. apply (max_of_spec (o_end x) (map o_end (x :: r))).
  - exists x. split; [now left|reflexivity].
Qed.

Lemma filter_some_map_dis gs :
  Forall (fun g => g <> []) gs -> filter_some (map dissolve_obs gs) = map dis gs.
Proof.
  induction 1 as [|g gs Hg H IH]; [reflexivity|]. simpl.
  destruct (dis_fields g Hg) as [-> _]. now rewrite IH.
Qed.

Lemma aggregate_point_clusters srt rows :
  aggregate_point srt rows
  = zip_with set_revisit (shift (map a_end (map dis (clusters (srt rows)))))
      (map dis (clusters (srt rows))).
Proof.
  unfold aggregate_point.
  assert (E : filter_some (map (fun g => dissolve_obs (map snd g))
                (group_by fst (combine (obs_numbers (srt rows)) (srt rows))))
              = map dis (clusters (srt rows))).
  { rewrite <- (map_map (map snd) dissolve_obs), groups_are_clusters.
    apply filter_some_map_dis, clusters_nonempty. }
  rewrite E. reflexivity.
Qed.

(** [zip_with set_revisit (shift ...)] as a recursion. *)
Fixpoint chain (prev : option Z) (l : list agg) : list agg :=
  match l with [] => [] | a :: r => set_revisit prev a :: chain (Some (a_end a)) r end.

Lemma zip_revisit_chain_some : forall l e,
  zip_with set_revisit (map Some (removelast (e :: map a_end l))) l = chain (Some e) l.
Proof.
  induction l as [|a r IH]; intro e; [reflexivity|].
  cbn [map]. change (removelast (e :: a_end a :: map a_end r))
    with (e :: removelast (a_end a :: map a_end r)).
  cbn [map]. unfold zip_with in *. cbn [combine map fst snd chain]. f_equal. apply IH.
Qed.

Lemma zip_revisit_chain l : zip_with set_revisit (shift (map a_end l)) l = chain None l.
Proof.
  destruct l as [|a r]; [reflexivity|]. unfold shift. cbn [map].
  unfold zip_with. cbn [combine map fst snd chain]. f_equal.
  apply zip_revisit_chain_some.
Qed.

Lemma aggregate_point_chain srt rows :
  aggregate_point srt rows = chain None (map dis (clusters (srt rows))).
Proof. rewrite aggregate_point_clusters. apply zip_revisit_chain. Qed.

Lemma chain_map {B} (f : agg -> B) l : 
  (forall p a, f (set_revisit p a) = f a) -> forall prev, map f (chain prev l) = map f l.
Proof.
  intro Hf. induction l as [|a r IH]; intro prev; simpl; [reflexivity|].
  now rewrite Hf, IH.
Qed.

(** ** Points of the output *)
Lemma clusters_in_rows rows g o : In g (clusters rows) -> In o g -> In o rows.
Proof. intros. rewrite <- (clusters_concat rows). apply in_concat; eauto. Qed.

Lemma chain_in prev l a : In a (chain prev l) -> exists b p, In b l /\ a = set_revisit p b.
Proof.
  revert prev. induction l as [|x r IH]; intros prev H; simpl in H; [destruct H|].
  destruct H as [<-|H]; [exists x, prev; split; [now left|reflexivity]|].
  destruct (IH _ H) as [b [p [Hb ->]]]. exists b, p. split; [now right|reflexivity].
Qed.

Lemma aggregate_point_id srt rows k :
  is_sort o_start srt -> (forall o, In o rows -> o_point o = k) ->
  forall a, In a (aggregate_point srt rows) -> a_point a = k.
Proof.
  intros HS Hk a Ha. rewrite aggregate_point_chain in Ha.
  apply chain_in in Ha as [b [p [Hb ->]]].
  apply in_map_iff in Hb as [g [<- Hg]]. simpl.
  pose proof (clusters_nonempty (srt rows)) as HN. rewrite Forall_forall in HN.
  destruct (dis_fields g (HN _ Hg)) as (_ & _ & _ & _ & _ & _ & _ & x & Hx & ->).
  apply Hk. apply (Permutation_in _ (proj1 (HS rows))). eapply clusters_in_rows; eauto.
Qed.

(** The output rows of point [p] are the aggregate of the rows of point [p]. *)
Lemma agg_rows_of srt rows p :
  is_sort o_start srt ->
  filter (fun a => a_point a =? p) (aggregate_observations srt rows)
  = aggregate_point srt (filter (fun o => o_point o =? p) rows).
Proof.
  intro HS. unfold aggregate_observations, group_by.
  assert (Hempty : aggregate_point srt [] = []).
  { rewrite aggregate_point_chain. destruct (HS []) as [HP _].
    apply Permutation_sym, Permutation_nil in HP. now rewrite HP. }
  pose proof (sorted_lt_nodup _ (group_keys_sorted o_point rows)) as ND.
  assert (Hout : ~ In p (group_keys o_point rows) ->
                 filter (fun o => o_point o =? p) rows = []).
  { intro Hn. apply filter_none. intros o Ho. apply Z.eqb_neq. intro E.
    apply Hn. apply group_keys_in. eauto. }
  assert (HG : forall k a, In a (aggregate_point srt (group_rows o_point k rows)) -> a_point a = k).
  { intros k. apply aggregate_point_id; [assumption|].
    intros o Ho. apply group_rows_in in Ho. tauto. }
  assert (Hgen : forall ks, NoDup ks ->
     filter (fun a => a_point a =? p)
       (flat_map (aggregate_point srt) (map (fun k => group_rows o_point k rows) ks))
     = if in_dec Z.eq_dec p ks then aggregate_point srt (group_rows o_point p rows) else []).
  { induction ks as [|k ks IH]; intro NDk; simpl; [reflexivity|].
    inversion NDk; subst. rewrite filter_app, IH by assumption.
    destruct (Z.eq_dec k p) as [->|Hne].
    - rewrite filter_all by (intros a Ha; apply Z.eqb_eq; eapply HG; eauto).
      destruct (in_dec Z.eq_dec p ks); [contradiction|]. apply app_nil_r.
    - rewrite filter_none by (intros a Ha; apply Z.eqb_neq; rewrite (HG k a Ha); assumption).
      simpl. destruct (in_dec Z.eq_dec p ks); reflexivity. }
  rewrite Hgen by assumption.
  destruct (in_dec Z.eq_dec p (group_keys o_point rows)) as [Hin|Hin]; [reflexivity|].
  rewrite (Hout Hin), Hempty. reflexivity.
Qed.

(** ** Main aggregation facts *)
Lemma proper_perm l l' : Permutation l l' -> proper l -> proper l'.
Proof.
  intros P H. unfold proper in *. rewrite Forall_forall in *.
  intros x Hx. apply H. eapply Permutation_in; [symmetry|]; eauto.
Qed.

Lemma covered_perm l l' t : Permutation l l' -> covered l t -> covered l' t.
Proof.
  intros P [i [Hi H]]. exists i. split; [|assumption]. eapply Permutation_in; eauto.
Qed.

Lemma covered_concat gs t :
  covered (map ivl (concat gs)) t <-> exists g, In g gs /\ covered (map ivl g) t.
Proof.
  induction gs as [|g gs IH]; simpl.
  - split; [intros [i [[] _]]|intros [g [[] _]]].
  - rewrite map_app, covered_app, IH. split.
    + intros [H|[g' [Hg' H]]]; eauto.
    + intros [g' [[<-|Hg'] H]]; eauto.
Qed.

Definition aivl (a : agg) : Z * Z := (a_start a, a_end a).

Lemma aivl_point srt rows :
  map aivl (aggregate_point srt rows) = map (fun g => aivl (dis g)) (clusters (srt rows)).
Proof. rewrite aggregate_point_chain, chain_map by reflexivity. now rewrite map_map. Qed.

Lemma span_dis g s m : span g s m -> aivl (dis g) = (s, m).
Proof.
  intros [NE [Hmin [Hmax _]]]. destruct (dis_fields g NE) as (_ & H1 & H2 & _).
  unfold aivl. f_equal; [eapply is_min_unique|eapply is_max_unique]; eauto.
Qed.

Lemma aggregate_point_separated srt rows :
  is_sort o_start srt -> proper rows -> separated (map aivl (aggregate_point srt rows)).
Proof.
  intros HS HP. rewrite aivl_point. destruct (HS rows) as [P S].
  apply (proper_perm _ _ (Permutation_sym P)) in HP.
  pose proof (clusters_spans _ S HP) as HSp. rewrite Forall_forall in HSp.
  split.
  - apply Forall_forall. intros i Hi. apply in_map_iff in Hi as [g [<- Hg]].
    destruct (HSp _ Hg) as [s [m Hsp]]. rewrite (span_dis _ _ _ Hsp). simpl. apply Hsp.
  - pose proof (clusters_before _ S) as HB. revert HSp HB.
    generalize (clusters (srt rows)). induction l as [|g gs IH]; intros HSp HB; simpl; [constructor|].
    inversion HB; subst. constructor.
    + apply IH; auto. intros; apply HSp; now right.
    + apply Forall_forall. intros i Hi. apply in_map_iff in Hi as [g' [<- Hg']].
      rewrite Forall_forall in H2. specialize (H2 _ Hg').
      destruct (HSp g (or_introl eq_refl)) as [s [m Hsp]].
      destruct (HSp g' (or_intror Hg')) as [s' [m' Hsp']].
      rewrite (span_dis _ _ _ Hsp), (span_dis _ _ _ Hsp'). simpl.
      destruct Hsp as (_ & _ & [Hm _] & _). destruct Hsp' as (_ & [Hs' _] & _).
      apply in_map_iff in Hm as [a [<- Ha]]. apply in_map_iff in Hs' as [b [<- Hb]].
      apply H2; assumption.
Qed.

Lemma aggregate_point_covered srt rows t :
  is_sort o_start srt -> proper rows ->
  covered (map aivl (aggregate_point srt rows)) t <-> covered (map ivl rows) t.
Proof.
  intros HS HP. rewrite aivl_point. destruct (HS rows) as [P S].
  apply (proper_perm _ _ (Permutation_sym P)) in HP.
  pose proof (clusters_spans _ S HP) as HSp. rewrite Forall_forall in HSp.
  transitivity (covered (map ivl (srt rows)) t).
  2:{ split; apply covered_perm, Permutation_map; [|symmetry]; assumption. }
  rewrite <- (clusters_concat (srt rows)) at 2. rewrite covered_concat.
  split.
  - intros [i [Hi Ht]]. apply in_map_iff in Hi as [g [<- Hg]]. exists g. split; [assumption|].
    destruct (HSp _ Hg) as [s [m Hsp]]. rewrite (span_dis _ _ _ Hsp) in Ht.
    apply Hsp. exact Ht.
  - intros [g [Hg Ht]]. destruct (HSp _ Hg) as [s [m Hsp]].
    exists (s, m). split; [|apply Hsp, Ht].
    apply in_map_iff. exists g. split; [now apply span_dis|assumption].
Qed.

Lemma aggregate_separated_lemma srt rows p :
  is_sort o_start srt -> proper rows ->
  separated (agg_intervals p (aggregate_observations srt rows)).
Proof.
  intros HS HP. unfold agg_intervals. rewrite agg_rows_of by assumption.
  apply aggregate_point_separated; [assumption|].
  unfold proper in *. rewrite Forall_forall in *. intros x Hx. apply filter_In in Hx. apply HP, Hx.
Qed.

Lemma aggregate_covered_lemma srt rows p t :
  is_sort o_start srt -> proper rows ->
  covered (agg_intervals p (aggregate_observations srt rows)) t
  <-> covered (obs_intervals p rows) t.
Proof.
  intros HS HP. unfold agg_intervals, obs_intervals. rewrite agg_rows_of by assumption.
  apply aggregate_point_covered; [assumption|].
  unfold proper in *. rewrite Forall_forall in *. intros x Hx. apply filter_In in Hx. apply HP, Hx.
Qed.

(** ** Uniqueness of the separated decomposition *)
Lemma covered_cons i l t :
  covered (i :: l) t <-> ((inject_Z (fst i) <= t)%Q /\ (t <= inject_Z (snd i))%Q) \/ covered l t.
Proof. change (i :: l) with ([i] ++ l). rewrite covered_app, covered_one. tauto. Qed.

Lemma separated_cons i l :
  separated (i :: l) -> separated l /\ fst i <= snd i /\ Forall (fun j => snd i < fst j) l.
Proof.
  intros [H1 H2]. inversion H1; subst. inversion H2; subst. repeat split; assumption.
Qed.

Lemma covered_later (i : Z * Z) l t :
  Forall (fun j => snd i < fst j) l -> covered l t -> (inject_Z (snd i) < t)%Q.
Proof.
  intros H [j [Hj [Ht _]]]. rewrite Forall_forall in H. specialize (H _ Hj).
  rewrite Zlt_Qlt in H. lra.
Qed.

Lemma separated_unique : forall l l',
  separated l -> separated l' -> (forall t, covered l t <-> covered l' t) -> l = l'.
Proof.
  induction l as [|[a b] l IH]; intros [|[a' b'] l'] Hl Hl' HC.
  - reflexivity.
  - exfalso. apply separated_cons in Hl' as [_ [Hb _]]. simpl in Hb.
    destruct (proj2 (HC (inject_Z a'))) as [i [[] _]].
    apply covered_cons. left. simpl. split; [lra|]. now rewrite <- Zle_Qle.
  - exfalso. apply separated_cons in Hl as [_ [Hb _]]. simpl in Hb.
    destruct (proj1 (HC (inject_Z a))) as [i [[] _]].
    apply covered_cons. left. simpl. split; [lra|]. now rewrite <- Zle_Qle.
  - apply separated_cons in Hl as [Hl [Hab Hlt]]. apply separated_cons in Hl' as [Hl' [Hab' Hlt']].
    simpl in *.
    assert (Ha : a = a').
    { assert (Hq : (inject_Z a <= inject_Z b)%Q) by now rewrite <- Zle_Qle.
      assert (Hq' : (inject_Z a' <= inject_Z b')%Q) by now rewrite <- Zle_Qle.
      assert (H1 : covered ((a', b') :: l') (inject_Z a)) by (apply HC, covered_cons; left; simpl; split; lra).
      assert (H2 : covered ((a, b) :: l) (inject_Z a')) by (apply HC, covered_cons; left; simpl; split; lra).
      apply covered_cons in H1 as [[H1 _]|H1]; simpl in *.
      - apply covered_cons in H2 as [[H2 _]|H2]; simpl in *.
        + rewrite <- Zle_Qle in H1, H2. lia.
        + apply (covered_later (a, b)) in H2; [|assumption]. simpl in H2.
          rewrite <- Zlt_Qlt in H2. rewrite <- Zle_Qle in H1. lia.
      - apply (covered_later (a', b')) in H1; [|assumption]. simpl in H1.
        apply covered_cons in H2 as [[H2 _]|H2]; simpl in *.
        + rewrite <- Zle_Qle in H2. rewrite <- Zlt_Qlt in H1. lia.
        + apply (covered_later (a, b)) in H2; [|assumption]. simpl in H2.
          rewrite <- Zlt_Qlt in H1, H2. lia. }
    subst a'.
    assert (Hhalf : forall b0 b1 l0 l1, a <= b0 -> a <= b1 -> Forall (fun j => b0 < fst j) l0 ->
      (forall t, covered ((a, b1) :: l1) t -> covered ((a, b0) :: l0) t) -> b1 <= b0).
    { clear. intros b0 b1 l0 l1 H0 H1 HF HC.
      destruct (Z.le_gt_cases b1 b0) as [|Hgt]; [assumption|exfalso].
      set (t := (inject_Z b0 + (1 # 2))%Q).
      assert (Ht1 : (inject_Z b0 + 1 <= inject_Z b1)%Q).
      { change 1%Q with (inject_Z 1). rewrite <- inject_Z_plus, <- Zle_Qle. lia. }
      assert (H0q : (inject_Z a <= inject_Z b0)%Q) by now rewrite <- Zle_Qle.
      assert (Hc : covered ((a, b0) :: l0) t).
      { apply HC. apply covered_cons. left. simpl. unfold t. split; lra. }
      apply covered_cons in Hc as [[_ Hc]|[j [Hj [Hc _]]]]; simpl in *.
      - unfold t in Hc. lra.
      - rewrite Forall_forall in HF. specialize (HF _ Hj).
        assert (inject_Z b0 + 1 <= inject_Z (fst j))%Q.
        { change 1%Q with (inject_Z 1). rewrite <- inject_Z_plus, <- Zle_Qle. lia. }
        unfold t in Hc. lra. }
    assert (b = b').
    { assert (b' <= b) by (apply (Hhalf b b' l l'); auto; intro; apply HC).
      assert (b <= b') by (apply (Hhalf b' b l' l); auto; intro; apply HC).
      lia. }
    subst b'. f_equal. apply IH; auto.
    intro t. split; intro Ht.
    + assert (Hx : covered ((a, b) :: l') t) by (apply HC, covered_cons; now right).
      apply (covered_later (a, b)) in Ht; [|assumption]. simpl in Ht.
      apply covered_cons in Hx as [[_ Hx]|Hx]; [simpl in Hx; lra|assumption].
    + assert (Hx : covered ((a, b) :: l) t) by (apply HC, covered_cons; now right).
      apply (covered_later (a, b)) in Ht; [|assumption]. simpl in Ht.
      apply covered_cons in Hx as [[_ Hx]|Hx]; [simpl in Hx; lra|assumption].
Qed.

Lemma obs_intervals_perm p rows rows' :
  Permutation rows rows' -> Permutation (obs_intervals p rows) (obs_intervals p rows').
Proof. intro P. unfold obs_intervals. apply Permutation_map, filter_perm, P. Qed.

Lemma aggregate_order_lemma srt srt' rows rows' p :
  is_sort o_start srt -> is_sort o_start srt' -> proper rows -> Permutation rows rows' ->
  agg_intervals p (aggregate_observations srt rows)
  = agg_intervals p (aggregate_observations srt' rows').
Proof.
  intros HS HS' HP P. pose proof (proper_perm _ _ P HP) as HP'.
  apply separated_unique; try (apply aggregate_separated_lemma; assumption).
  intro t. rewrite !aggregate_covered_lemma by assumption.
  split; apply covered_perm, obs_intervals_perm; [|symmetry]; assumption.
Qed.


Lemma obs_intervals_as_obs ep p l : obs_intervals p (map (as_obs ep) l) = agg_intervals p l.
Proof.
  unfold obs_intervals, agg_intervals. induction l as [|a r IH]; simpl; [reflexivity|].
  destruct (a_point a =? p); simpl; [f_equal|]; exact IH.
Qed.

Lemma agg_proper srt rows ep :
  is_sort o_start srt -> proper rows ->
  proper (map (as_obs ep) (aggregate_observations srt rows)).
Proof.
  intros HS HP. unfold proper. apply Forall_forall. intros o Ho.
  apply in_map_iff in Ho as [a [<- Ha]]. simpl.
  destruct (aggregate_separated_lemma srt rows (a_point a) HS HP) as [H _].
  rewrite Forall_forall in H. apply (H (a_start a, a_end a)).
  unfold agg_intervals. apply in_map_iff. exists a. split; [reflexivity|].
  apply filter_In. split; [assumption|apply Z.eqb_refl].
Qed.

Lemma aggregate_idempotent_lemma srt srt' ep rows p :
  is_sort o_start srt -> is_sort o_start srt' -> proper rows ->
  agg_intervals p
    (aggregate_observations srt' (map (as_obs ep) (aggregate_observations srt rows)))
  = agg_intervals p (aggregate_observations srt rows).
Proof.
  intros HS HS' HP. pose proof (agg_proper srt rows ep HS HP) as HP'.
  apply separated_unique; try (apply aggregate_separated_lemma; assumption).
  intro t. rewrite aggregate_covered_lemma by assumption.
  rewrite obs_intervals_as_obs. reflexivity.
Qed.

(** ** Provenance *)
Lemma inject_Z_pos n : 0 < n -> (0 < inject_Z n)%Q.
Proof. intro H. change 0%Q with (inject_Z 0). now rewrite <- Zlt_Qlt. Qed.

Lemma mean_Z_is_mean l : l <> [] -> is_mean (mean_Z l) l.
Proof.
  intro H. split; [assumption|]. unfold mean_Z, sum_Z.
  assert (P : 0 < Z.of_nat (length l)) by (destruct l; [congruence|simpl length; lia]).
  apply inject_Z_pos in P. field. lra.
Qed.


Lemma Forall2_chain {B} (R : B -> agg -> Prop) :
  (forall b p a, R b a -> R b (set_revisit p a)) ->
  forall bs l prev, Forall2 R bs l -> Forall2 R bs (chain prev l).
Proof.
  intros HR bs l prev H. revert prev.
  induction H; intro prev; simpl; constructor; auto.
Qed.

Lemma aggregate_point_provenance srt rows k :
  is_sort o_start srt -> (forall o, In o rows -> o_point o = k) ->
  exists parts, Permutation (concat parts) rows
    /\ Forall2 contributes parts (aggregate_point srt rows).
Proof.
  intros HS Hk. exists (clusters (srt rows)). split.
  - rewrite clusters_concat. apply HS.
  - rewrite aggregate_point_chain. apply Forall2_chain.
    + intros b p a H. exact H.
    + assert (HN := clusters_nonempty (srt rows)).
      assert (HI : forall g, In g (clusters (srt rows)) -> forall o, In o g -> o_point o = k).
      { intros g Hg o Ho. apply Hk. apply (Permutation_in _ (proj1 (HS rows))).
        eapply clusters_in_rows; eauto. }
      revert HN HI. generalize (clusters (srt rows)).
      induction l as [|g gs IH]; intros HN HI; simpl; [constructor|].
      inversion HN; subst. constructor.
      * destruct (dis_fields g H1) as (_ & Hmin & Hmax & _ & Hsat & Hinst & Hep & x & Hx & Ep).
        split; [assumption|]. split; [|repeat split; try assumption; try apply Hmin; try apply Hmax;
          [destruct g; [congruence|discriminate]|rewrite Hep; apply mean_Z_is_mean; destruct g; [congruence|discriminate]]].
        apply Forall_forall. intros o Ho.
        rewrite Ep, (HI g (or_introl eq_refl) x Hx), (HI g (or_introl eq_refl) o Ho).
        destruct Hmin as [_ Hmin]. destruct Hmax as [_ Hmax]. rewrite Forall_forall in Hmin, Hmax.
        split; [reflexivity|]. split; [apply Hmin|apply Hmax]; apply in_map; assumption.
      * apply IH; auto. intros g' Hg'. apply HI. now right.
Qed.

Lemma aggregate_provenance_lemma srt rows :
  is_sort o_start srt ->
  exists parts, Permutation (concat parts) rows
    /\ Forall2 contributes parts (aggregate_observations srt rows).
Proof.
  intro HS. unfold aggregate_observations.
  assert (G : forall gs, (forall g, In g gs -> exists k, forall o, In o g -> o_point o = k) ->
    exists parts, Permutation (concat parts) (concat gs)
      /\ Forall2 contributes parts (flat_map (aggregate_point srt) gs)).
  { induction gs as [|g gs IH]; intro H; simpl.
    - exists []. split; constructor.
    - destruct (H g (or_introl eq_refl)) as [k Hk].
      destruct (aggregate_point_provenance srt g k HS Hk) as [p1 [P1 F1]].
      destruct IH as [p2 [P2 F2]]; [intros; apply H; now right|].
      exists (p1 ++ p2). split.
      + rewrite concat_app. now apply Permutation_app.
      + now apply Forall2_app. }
  destruct (G (group_by o_point rows)) as [parts [P F]].
  - intros g Hg. unfold group_by in Hg. apply in_map_iff in Hg as [k [<- _]].
    exists k. intros o Ho. apply group_rows_in in Ho. tauto.
  - exists parts. split; [|assumption]. rewrite P. apply group_by_partition.
Qed.

(** ** Access and revisit *)
Lemma chain_revisits : forall l prev,
  (forall e, prev = Some e -> match l with [] => True | a :: _ => e < a_start a end) ->
  StronglySorted (fun a b : Z * Z => snd a < fst b) (map aivl l) ->
  revisits prev (chain prev l).
Proof.
  induction l as [|a r IH]; intros prev Hp HS; simpl; [exact I|].
  inversion HS; subst. split.
  - destruct prev as [e|]; [|exact I]. specialize (Hp e eq_refl). simpl. lia.
  - apply IH; [|assumption]. intros e [= <-]. destruct r as [|b r']; [exact I|].
    inversion H2; subst. exact H3.
Qed.

Lemma aggregate_revisits_lemma srt rows p :
  is_sort o_start srt -> proper rows ->
  revisits None (filter (fun a => a_point a =? p) (aggregate_observations srt rows)).
Proof.
  intros HS HP. rewrite agg_rows_of by assumption.
  set (rp := filter _ rows).
  assert (HPp : proper rp).
  { unfold proper, rp in *. rewrite Forall_forall in *. intros x Hx.
    apply filter_In in Hx. apply HP, Hx. }
  rewrite aggregate_point_chain. apply chain_revisits; [discriminate|].
  destruct (aggregate_point_separated srt rp HS HPp) as [_ H].
  rewrite aggregate_point_chain, chain_map in H by reflexivity. exact H.
Qed.

Lemma aggregate_access_lemma srt rows a :
  is_sort o_start srt -> proper rows -> In a (aggregate_observations srt rows) ->
  a_access a = a_end a - a_start a /\ 0 <= a_access a.
Proof.
  intros HS HP Ha.
  assert (E : a_access a = a_end a - a_start a).
  { unfold aggregate_observations in Ha. apply in_flat_map in Ha as [g [_ Ha]].
    rewrite aggregate_point_chain in Ha. apply chain_in in Ha as [b [q [Hb ->]]].
    apply in_map_iff in Hb as [c [<- Hc]]. simpl.
    pose proof (clusters_nonempty (srt g)) as HN. rewrite Forall_forall in HN.
    apply (dis_fields c (HN _ Hc)). }
  split; [assumption|].
  pose proof (agg_proper srt rows (fun _ => 0) HS HP) as H.
  unfold proper in H. rewrite Forall_forall in H.
  specialize (H (as_obs (fun _ => 0) a) (in_map _ _ _ Ha)). simpl in H. lia.
Qed.

Lemma last_default {A} (l : list A) a b : l <> [] -> last l a = last l b.
Proof.
  induction l as [|x r IH]; intro H; [congruence|].
  destruct r as [|y r]; [reflexivity|]. apply IH. discriminate.
Qed.

Lemma revisits_telescope : forall l prev,
  (forall a, In a l -> a_access a = a_end a - a_start a) ->
  revisits prev l ->
  match l with
  | [] => True
  | a :: _ => sum_Z (map a_access l) + sum_Z (map revisit_or_zero l)
              = a_end (last l a) - (match prev with None => a_start a | Some e => e end)
  end.
Proof.
  induction l as [|a r IH]; intros prev HA HR; [exact I|].
  simpl in HR. destruct HR as [H1 H2].
  assert (HA' : forall b, In b r -> a_access b = a_end b - a_start b) by (intros; apply HA; now right).
  specialize (IH (Some (a_end a)) HA' H2).
  pose proof (HA a (or_introl eq_refl)) as Ea.
  assert (Er : revisit_or_zero a = match prev with None => 0 | Some e => a_start a - e end).
  { unfold revisit_or_zero. destruct prev, (a_revisit a); try tauto; reflexivity. }
  destruct r as [|b r].
  - simpl. rewrite Ea, Er. destruct prev; lia.
  - change (last (a :: b :: r) a) with (last (b :: r) a).
    replace (last (b :: r) a) with (last (b :: r) b).
    2:{ apply last_default. discriminate. }
    change (sum_Z (map a_access (a :: b :: r))) with (a_access a + sum_Z (map a_access (b :: r))).
    change (sum_Z (map revisit_or_zero (a :: b :: r)))
      with (revisit_or_zero a + sum_Z (map revisit_or_zero (b :: r))).
    cbv beta iota in IH.
    rewrite Ea, Er. destruct prev; lia.
Qed.

(** ** Collection *)
Lemma timedelta_half_even d : d mod 2 = 0 -> 2 * timedelta_half d = d.
Proof.
  intro H. unfold timedelta_half. rewrite H. cbv beta iota zeta delta [Z.eqb].
  pose proof (Z.div_mod d 2). lia.
Qed.

Lemma collect_in pid sat inst a valid fp periods o :
  In o (collect_observations pid sat inst a valid fp periods) <->
  exists p, In p periods /\ keep_period a valid fp p = true /\ o = mk_record pid sat inst a p.
Proof.
  unfold collect_observations. rewrite in_map_iff. split.
  - intros [p [<- Hp]]. apply filter_In in Hp. exists p. tauto.
  - intros [p [H1 [H2 ->]]]. exists p. split; [reflexivity|]. now apply filter_In.
Qed.

Lemma multi_sorted_union {C S} srt (members : C -> list S) n_inst collect sats out :
  is_sort o_start srt ->
  collect_multi_observations srt members n_inst collect sats = Ok out ->
  StronglySorted (key_le o_start) out
  /\ Permutation out (concat (multi_frames members n_inst collect sats)).
Proof.
  intros HS H. unfold collect_multi_observations in H.
  destruct (multi_frames members n_inst collect sats) as [|f fs]; [discriminate|].
  injection H as <-. destruct (HS (concat (f :: fs))). split; assumption.
Qed.
