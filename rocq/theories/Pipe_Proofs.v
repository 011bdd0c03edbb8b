(** Proofs about whole analyses. *)
From Coq Require Import String ZArith QArith List Bool Sorting.Sorted Sorting.Permutation Lia.
From Verif Require Import Base BaseFacts Coverage_Model Coverage_Spec Coverage_Proofs2 Coverage_Proofs3
  Latency_Model Latency_Spec Latency_Proofs Pipe_Spec.
Import ListNotations.
Open Scope Z_scope.

(** ** Coverage *)

Definition cols (a : agg) : Z * option Z := (a_access a, a_revisit a).

Lemma revisits_columns : forall l prev,
  (forall a, In a l -> a_access a = a_end a - a_start a) -> revisits prev l ->
  map cols l = gap_column prev (map (fun a => (a_start a, a_end a)) l).
Proof.
  induction l as [|a l IH]; intros prev HA HR; [reflexivity|].
  cbn [map gap_column fst snd]. destruct HR as [H HR]. f_equal.
  - unfold cols. rewrite (HA a (or_introl eq_refl)). f_equal.
    destruct prev, (a_revisit a); try contradiction; [|reflexivity].
    destruct H as [-> _]. reflexivity.
  - apply IH; [|assumption]. intros b Hb. apply HA. now right.
Qed.

Lemma aggregate_columns srt rows p :
  is_sort o_start srt -> proper rows ->
  map cols (rows_of p (aggregate_observations srt rows))
  = gap_column None (agg_intervals p (aggregate_observations srt rows)).
Proof.
  intros HS HP. unfold rows_of, agg_intervals. apply revisits_columns.
  - intros a Ha. apply filter_In in Ha as [Ha _]. now apply (aggregate_access_lemma srt rows a HS HP).
  - now apply aggregate_revisits_lemma.
Qed.

Lemma rows_of_nonempty p A : In p (group_keys a_point A) <-> map cols (rows_of p A) <> [].
Proof.
  rewrite group_keys_in. unfold rows_of. split.
  - intros (a & Ha & E) N. apply map_eq_nil in N.
    assert (In a (filter (fun a => a_point a =? p) A)) as H.
    { apply filter_In. split; [assumption | now apply Z.eqb_eq]. }
    rewrite N in H. destruct H.
  - intro N. destruct (filter (fun a => a_point a =? p) A) as [|a l] eqn:E; [now elim N|].
    assert (In a (a :: l)) as H by now left. rewrite <- E in H. apply filter_In in H as [H K].
    exists a. split; [assumption | now apply Z.eqb_eq].
Qed.

Lemma reduce_group_cols g g' :
  map cols g = map cols g' -> (forall a, In a g -> forall a', In a' g' -> a_point a = a_point a') ->
  reduce_group g = reduce_group g'.
Proof.
  intros E P. destruct g as [|a g], g' as [|a' g']; try discriminate; [reflexivity|].
  unfold reduce_group.
  assert (E1 : map a_access (a :: g) = map a_access (a' :: g')).
  { apply (f_equal (map fst)) in E. rewrite !map_map in E. exact E. }
  assert (E2 : map a_revisit (a :: g) = map a_revisit (a' :: g')).
  { apply (f_equal (map snd)) in E. rewrite !map_map in E. exact E. }
  rewrite E1, E2. f_equal. f_equal.
  - apply P; now left.
  - rewrite !sum_ones. f_equal. apply (f_equal (@length _)) in E1. now rewrite !map_length in E1.
Qed.

Lemma reduce_from_columns A A' :
  (forall p, map cols (rows_of p A) = map cols (rows_of p A')) ->
  reduce_observations A = reduce_observations A'.
Proof.
  intro H. unfold reduce_observations, group_by.
  assert (K : group_keys a_point A = group_keys a_point A').
  { apply sorted_lt_ext; try apply group_keys_sorted. intro x. now rewrite !rows_of_nonempty, H. }
  rewrite K. f_equal. rewrite !map_map. apply map_ext. intro k.
  apply reduce_group_cols; [exact (H k)|].
  intros a Ha a' Ha'. apply group_rows_in in Ha as [_ ->], Ha' as [_ ->]. reflexivity.
Qed.

Lemma reduced_coverage_lemma srt srt' rows rows' :
  is_sort o_start srt -> is_sort o_start srt' -> proper rows -> proper rows' ->
  same_coverage rows rows' ->
  reduce_observations (aggregate_observations srt rows)
  = reduce_observations (aggregate_observations srt' rows').
Proof.
  intros HS HS' HP HP' HC. apply reduce_from_columns. intro p.
  rewrite !aggregate_columns by assumption. f_equal.
  apply separated_unique; try now apply aggregate_separated_lemma.
  intro t. rewrite !aggregate_covered_lemma by assumption. apply HC.
Qed.

Lemma covered_perm_iff l l' t : Permutation l l' -> (covered l t <-> covered l' t).
Proof. intro P. split; intro H; [apply (covered_perm l l') | apply (covered_perm l' l)]; auto using Permutation_sym. Qed.

Lemma reduced_order_lemma srt srt' rows rows' :
  is_sort o_start srt -> is_sort o_start srt' -> proper rows -> Permutation rows rows' ->
  reduce_observations (aggregate_observations srt rows)
  = reduce_observations (aggregate_observations srt' rows').
Proof.
  intros HS HS' HP P. apply reduced_coverage_lemma; try assumption.
  - eapply proper_perm; eassumption.
  - intros p t. apply covered_perm_iff. now apply obs_intervals_perm.
Qed.

Lemma reduced_samples_positive A r : In r (reduce_observations A) -> 0 < r_samples r.
Proof.
  intro H. destruct (reduce_spec_lemma A) as (_ & K & S).
  destruct (S r H) as [E _]. rewrite E.
  assert (N : rows_of (r_point r) A <> []) by (apply K, in_map, H).
  destruct (rows_of (r_point r) A); [congruence|]. simpl length. lia.
Qed.

Lemma pipeline_outcome_lemma {G} (contains : G -> red -> bool) A (cells : list (cell G)) :
  NoDup (map c_id cells) ->
  let R := reduce_observations A in
  (labelled contains R cells /\ exists out, grid_observations contains R cells = Ok out)
  \/ (~ labelled contains R cells /\ grid_observations contains R cells = Raise KeyError).
Proof.
  intros ND R. unfold labelled. apply grid_outcome_lemma; [assumption|].
  intros r Hr. now apply (reduced_samples_positive A).
Qed.

Lemma sum_groups {A} (key : A -> Z) (l : list A) :
  sum_Z (map (fun g => Z.of_nat (length g)) (group_by key l)) = Z.of_nat (length l).
Proof.
  rewrite <- (Permutation_length (group_by_partition key l)).
  induction (group_by key l) as [|g gs IH]; [reflexivity|].
  cbn [map concat]. unfold sum_Z in *. cbn [fold_right]. rewrite app_length, IH. lia.
Qed.

Lemma filter_some_all {A B} (f : A -> option B) (g : B -> Z) (h : A -> Z) l :
  (forall x, In x l -> exists y, f x = Some y /\ g y = h x) ->
  map g (filter_some (map f l)) = map h l.
Proof.
  induction l as [|x l IH]; intro H; [reflexivity|].
  destruct (H x (or_introl eq_refl)) as (y & E & Ey). cbn. rewrite E. cbn. rewrite Ey. f_equal.
  apply IH. intros z Hz. apply H. now right.
Qed.

Lemma reduced_total A : sum_Z (map r_samples (reduce_observations A)) = Z.of_nat (length A).
Proof.
  rewrite <- (sum_groups a_point A). unfold reduce_observations. f_equal.
  apply filter_some_all. intros g Hg. unfold group_by in Hg. apply in_map_iff in Hg as (k & <- & Hk).
  pose proof (group_rows_nonempty a_point k A Hk) as N.
  destruct (group_rows a_point k A) as [|x g] eqn:E; [congruence|].
  eexists. split; [reflexivity|]. cbn [r_samples]. now rewrite sum_ones.
Qed.

Lemma pipeline_samples_lemma {G} (contains : G -> red -> bool) A (cells : list (cell G)) out :
  A <> [] ->
  let R := reduce_observations A in
  (forall r, In r R -> times_covered contains cells r = 1%nat) ->
  grid_observations contains R cells = Ok out ->
  sum_Z (map g_samples out) = Z.of_nat (length A).
Proof.
  intros NE R HT H. rewrite <- reduced_total. apply (grid_conserves_lemma contains R cells); auto.
  intro E. apply (f_equal (fun l => sum_Z (map r_samples l))) in E. unfold R in E.
  rewrite reduced_total in E. destruct A; [congruence|]. cbn in E. lia.
Qed.

(** ** Latency *)

Lemma find_first_sorted downs o d :
  StronglySorted (key_le d_start) downs ->
  asof_forward downs o = Some d ->
  In d downs /\ usable o d /\ forall d', In d' downs -> usable o d' -> d_start d <= d_start d'.
Proof.
  unfold asof_forward. intro S. induction S as [|x l S IH F]; [discriminate|].
  cbn [find]. destruct (String.eqb_spec (d_sat x) (o_sat o)) as [E|E]; cbn [andb].
  - destruct (Z.leb_spec (o_end o) (d_start x)) as [L|L].
    + intro H. inversion H; subst d. split; [now left|]. split; [split; assumption|].
      intros d' [<-|Hd'] _; [lia|]. rewrite Forall_forall in F. now apply F.
    + intro H. destruct (IH H) as (A & B & C). split; [now right|]. split; [assumption|].
      intros d' [<-|Hd'] U; [destruct U; lia | now apply C].
  - intro H. destruct (IH H) as (A & B & C). split; [now right|]. split; [assumption|].
    intros d' [<-|Hd'] U; [destruct U; contradiction | now apply C].
Qed.

Lemma find_none_usable downs o :
  asof_forward downs o = None -> forall d, In d downs -> ~ usable o d.
Proof.
  unfold asof_forward. intros H d Hd [E L]. pose proof (find_none _ _ H d Hd) as N. cbn in N.
  apply String.eqb_eq in E. rewrite E in N. apply Z.leb_le in L. rewrite L in N. discriminate.
Qed.

Lemma asof_unique downs downs' o :
  StronglySorted (key_le d_start) downs -> StronglySorted (key_le d_start) downs' ->
  Permutation downs downs' -> distinct_starts downs ->
  asof_forward downs o = asof_forward downs' o.
Proof.
  intros S S' P D.
  destruct (asof_forward downs o) as [d|] eqn:E, (asof_forward downs' o) as [d'|] eqn:E'.
  - destruct (find_first_sorted _ _ _ S E) as (I & U & M).
    destruct (find_first_sorted _ _ _ S' E') as (I' & U' & M').
    f_equal. apply D; [assumption | now apply (Permutation_in d' (Permutation_sym P)) | |].
    + destruct U, U'. congruence.
    + apply Z.le_antisymm; [apply M | apply M']; try assumption.
      * now apply (Permutation_in d' (Permutation_sym P)).
      * now apply (Permutation_in d P).
  - exfalso. destruct (find_first_sorted _ _ _ S E) as (I & U & _).
    apply (find_none_usable _ _ E' d); [now apply (Permutation_in d P) | assumption].
  - exfalso. destruct (find_first_sorted _ _ _ S' E') as (I & U & _).
    apply (find_none_usable _ _ E d'); [now apply (Permutation_in d' (Permutation_sym P)) | assumption].
  - reflexivity.
Qed.

Lemma latencies_perm srt_o srt_d srt_l srt_o' srt_d' srt_l' rows rows' downs downs' :
  is_sort o_end srt_o -> is_sort d_start srt_d -> is_sort l_observed srt_l ->
  is_sort o_end srt_o' -> is_sort d_start srt_d' -> is_sort l_observed srt_l' ->
  Permutation rows rows' -> Permutation downs downs' -> distinct_starts downs ->
  Permutation (compute_latencies srt_o srt_d srt_l rows downs)
              (compute_latencies srt_o' srt_d' srt_l' rows' downs').
Proof.
  intros HO HD HL HO' HD' HL' P Q D. unfold compute_latencies.
  destruct rows as [|o rows]; [apply Permutation_nil in P; subst; constructor|].
  destruct rows' as [|o' rows']; [apply Permutation_sym, Permutation_nil in P; discriminate|].
  destruct downs as [|d downs]; [apply Permutation_nil in Q; subst; constructor|].
  destruct downs' as [|d' downs']; [apply Permutation_sym, Permutation_nil in Q; discriminate|].
  destruct (HL (map (latency_of (srt_d (d :: downs))) (srt_o (o :: rows)))) as [PL _].
  destruct (HL' (map (latency_of (srt_d' (d' :: downs'))) (srt_o' (o' :: rows')))) as [PL' _].
  rewrite PL, PL'.
  destruct (HD (d :: downs)) as [PD SD]. destruct (HD' (d' :: downs')) as [PD' SD'].
  destruct (HO (o :: rows)) as [PO _]. destruct (HO' (o' :: rows')) as [PO' _].
  assert (E : forall x, latency_of (srt_d (d :: downs)) x = latency_of (srt_d' (d' :: downs')) x).
  { intro x. unfold latency_of. rewrite (asof_unique (srt_d (d :: downs)) (srt_d' (d' :: downs')) x); auto.
    - rewrite PD, PD'. exact Q.
    - intros a b Ha Hb. apply D; eapply Permutation_in; eassumption. }
  rewrite (map_ext _ _ E). apply Permutation_map. now rewrite PO, PO'.
Qed.

Lemma filter_some_perm {A} (l l' : list (option A)) :
  Permutation l l' -> Permutation (filter_some l) (filter_some l').
Proof.
  induction 1 as [|x l l' P IH|x y l|l l' l'' P IH P' IH'].
  - constructor.
  - destruct x; cbn; [now constructor | assumption].
  - destruct x, y; cbn; try reflexivity. constructor.
  - etransitivity; eassumption.
Qed.

Lemma mean_perm l l' : Permutation l l' -> mean_Z l = mean_Z l'.
Proof. intro P. unfold mean_Z. now rewrite (sum_Z_perm _ _ P), (Permutation_length P). Qed.

Lemma mean_opt_perm l l' : Permutation l l' -> mean_opt l = mean_opt l'.
Proof.
  intro P. unfold mean_opt. apply filter_some_perm in P.
  destruct (filter_some l) as [|x m] eqn:E.
  - apply Permutation_nil in P. now rewrite P.
  - destruct (filter_some l') as [|x' m']; [apply Permutation_sym, Permutation_nil in P; discriminate|].
    f_equal. now apply mean_perm.
Qed.

Lemma reduce_latencies_perm rows rows' :
  Permutation rows rows' -> reduce_latencies rows = reduce_latencies rows'.
Proof.
  intro P. unfold reduce_latencies, group_by. rewrite (group_keys_perm l_point _ _ P).
  f_equal. rewrite !map_map. apply map_ext. intro k.
  assert (Pk : Permutation (group_rows l_point k rows) (group_rows l_point k rows')) by now apply filter_perm.
  assert (K : forall r, In r (group_rows l_point k rows) -> l_point r = k) by (intros; now apply group_rows_in in H).
  assert (K' : forall r, In r (group_rows l_point k rows') -> l_point r = k) by (intros; now apply group_rows_in in H).
  destruct (group_rows l_point k rows) as [|x g], (group_rows l_point k rows') as [|x' g'].
  - reflexivity.
  - apply Permutation_nil in Pk. discriminate.
  - apply Permutation_sym, Permutation_nil in Pk. discriminate.
  - unfold reduce_latency_group. f_equal. f_equal.
    + rewrite K, K' by now left. reflexivity.
    + apply mean_opt_perm. now apply Permutation_map.
    + rewrite !sum_ones. f_equal. now apply Permutation_length.
Qed.

Lemma reduced_latency_order_lemma srt_o srt_d srt_l srt_o' srt_d' srt_l' rows rows' downs downs' :
  is_sort o_end srt_o -> is_sort d_start srt_d -> is_sort l_observed srt_l ->
  is_sort o_end srt_o' -> is_sort d_start srt_d' -> is_sort l_observed srt_l' ->
  Permutation rows rows' -> Permutation downs downs' -> distinct_starts downs ->
  reduce_latencies (compute_latencies srt_o srt_d srt_l rows downs)
  = reduce_latencies (compute_latencies srt_o' srt_d' srt_l' rows' downs').
Proof. intros. apply reduce_latencies_perm. now apply latencies_perm. Qed.

Lemma reduced_latency_samples_positive L r : In r (reduce_latencies L) -> 0 < lr_samples r.
Proof.
  unfold reduce_latencies, group_by. rewrite filter_some_in, map_map, in_map_iff.
  intros (k & E & Hk). pose proof (group_rows_nonempty l_point k L Hk) as N.
  destruct (group_rows l_point k L) as [|x g] eqn:Eg; [congruence|]. unfold reduce_latency_group in E.
  match type of E with Some ?a = Some r => assert (H : r = a) by congruence end.
  rewrite H. cbn [lr_samples]. rewrite sum_ones. clear. simpl length. lia.
Qed.

Lemma latency_outcome_lemma {G} (contains : G -> lred -> bool) L (cells : list (cell G)) :
  NoDup (map c_id cells) ->
  let R := reduce_latencies L in
  (labelled contains R cells /\ exists out, grid_latencies contains R cells = Ok out)
  \/ (~ labelled contains R cells /\ grid_latencies contains R cells = Raise KeyError).
Proof.
  intros ND R. unfold labelled. apply lgrid_outcome_lemma; [assumption|].
  intros r Hr. now apply (reduced_latency_samples_positive L).
Qed.

Lemma latency_samples_lemma srt_o srt_d srt_l rows downs :
  is_sort o_end srt_o -> is_sort d_start srt_d -> is_sort l_observed srt_l -> downs <> [] ->
  let R := reduce_latencies (compute_latencies srt_o srt_d srt_l rows downs) in
  (forall p, In p (map lr_point R) <-> exists o, In o rows /\ o_point o = p)
  /\ forall r, In r R ->
       lr_samples r = Z.of_nat (length (filter (fun o => o_point o =? lr_point r) rows)).
Proof.
  intros HO HD HL ND R.
  assert (C : rows = [] \/ rows <> []) by (destruct rows; [now left | right; discriminate]).
  destruct C as [-> | NR].
  { split; [|intros r []]. intro p. split; [intros [] | intros (o & [] & _)]. }
  pose proof (rows_count_lemma srt_o srt_d srt_l rows downs HO HD HL NR ND) as P.
  apply (Permutation_map (fun x => fst (fst (fst x)))) in P. rewrite !map_map in P.
  change (map (fun x => fst (fst (fst (o_point x, o_sat x, o_inst x, o_epoch x)))) rows) with (map o_point rows) in P.
  set (L := compute_latencies srt_o srt_d srt_l rows downs) in *.
  change (map (fun x => fst (fst (fst (l_point x, l_sat x, l_inst x, l_observed x)))) L) with (map l_point L) in P.
  pose proof (reduce_latencies_lemma L) as (_ & K & S). split.
  - intro p. unfold R. rewrite (K p). unfold lat_rows_of. split.
    + intro N. destruct (filter (fun a => l_point a =? p) L) as [|a l] eqn:E; [congruence|].
      assert (Ha : In a (a :: l)) by now left. rewrite <- E in Ha. apply filter_In in Ha as [Ha Ea].
      apply Z.eqb_eq in Ea. assert (H : In p (map o_point rows)).
      { apply (Permutation_in _ (Permutation_sym P)). rewrite <- Ea. now apply in_map. }
      apply in_map_iff in H as (o & Eo & Ho). eauto.
    + intros (o & Ho & Eo) N. assert (H : In p (map l_point L)).
      { apply (Permutation_in _ P). rewrite <- Eo. now apply in_map. }
      apply in_map_iff in H as (a & Ea & Ha).
      assert (H : In a (filter (fun a => l_point a =? p) L)).
      { apply filter_In. split; [assumption | now apply Z.eqb_eq]. }
      rewrite N in H. destruct H.
  - intros r Hr. destruct (S r Hr) as [E _]. rewrite E. f_equal. unfold lat_rows_of.
    assert (F : forall {X} (f : X -> Z) k l, length (filter (fun x => f x =? k) l) = length (filter (fun x => x =? k) (map f l))).
    { intros X f k l. induction l as [|x l IH]; [reflexivity|]. cbn. destruct (f x =? k); cbn; now rewrite IH. }
    rewrite (F _ l_point), (F _ o_point). apply Permutation_length, filter_perm, Permutation_sym, P.
Qed.

(** ** Closing lemmas *)

Lemma pipeline_outcome_of_rows {G} (contains : G -> red -> bool) srt rows (cells : list (cell G)) :
  NoDup (map c_id cells) ->
  let R := reduce_observations (aggregate_observations srt rows) in
  (labelled contains R cells /\ exists out, grid_observations contains R cells = Ok out)
  \/ (~ labelled contains R cells /\ grid_observations contains R cells = Raise KeyError).
Proof. apply pipeline_outcome_lemma. Qed.

Lemma aggregate_nonempty srt rows : is_sort o_start srt -> rows <> [] -> aggregate_observations srt rows <> [].
Proof.
  intros HS N E. destruct (aggregate_provenance_lemma srt rows HS) as (parts & P & F).
  rewrite E in F. inversion F; subst. cbn in P. apply Permutation_nil in P. now apply N.
Qed.

Lemma pipeline_samples_of_rows {G} (contains : G -> red -> bool) srt rows (cells : list (cell G)) out :
  is_sort o_start srt -> rows <> [] ->
  let A := aggregate_observations srt rows in
  (forall r, In r (reduce_observations A) -> times_covered contains cells r = 1%nat) ->
  grid_observations contains (reduce_observations A) cells = Ok out ->
  sum_Z (map g_samples out) = Z.of_nat (length A).
Proof. intros HS N A. apply pipeline_samples_lemma. now apply aggregate_nonempty. Qed.

Lemma c160_witness_lemma :
  let rows := [ mk_obs 1 "A" "i" 10 15 20; mk_obs 1 "B" "i" 0 2 5; mk_obs 1 "C" "j" 3 4 6;
    mk_obs 2 "A" "i" 4 5 9; mk_obs 1 "D" "i" 20 21 22 ] in
  let other := [ mk_obs 2 "Z" "i" 4 5 9; mk_obs 1 "Z" "i" 10 11 15; mk_obs 1 "Y" "i" 12 15 22; mk_obs 1 "X" "i" 0 2 6 ] in
  let cells := [mk_cell 0 40 (0, 2); mk_cell 1 41 (2, 9)] in
  let inside := fun (g : Z * Z) (r : red) => (fst g <=? r_point r) && (r_point r <? snd g) in
  is_sort o_start (sort_by o_start) /\ proper rows /\ proper other
  /\ same_coverage rows other
  /\ (let R := reduce_observations (aggregate_observations (sort_by o_start) rows) in
      map (fun r => (r_point r, Qred (r_access r), option_map Qred (r_revisit r), r_samples r)) R
      = [(1, 9%Q, Some 4%Q, 2); (2, 5%Q, None, 1)]
      /\ labelled inside R cells
      /\ (forall r, In r R -> times_covered inside cells r = 1%nat)
      /\ exists out, grid_observations inside R cells = Ok out
           /\ map g_samples out = [2; 1]).
Proof.
  intros rows other cells inside.
  assert (P : proper rows) by (repeat constructor; cbn; lia).
  assert (P' : proper other) by (repeat constructor; cbn; lia).
  pose proof (sort_by_is_sort o_start) as HS.
  split; [exact HS|]. split; [exact P|]. split; [exact P'|]. split.
  - intros p t.
    rewrite <- (aggregate_covered_lemma _ rows p t HS P), <- (aggregate_covered_lemma _ other p t HS P').
    assert (E : agg_intervals p (aggregate_observations (sort_by o_start) rows)
              = agg_intervals p (aggregate_observations (sort_by o_start) other)).
    { unfold agg_intervals. set (a := aggregate_observations _ rows). set (b := aggregate_observations _ other).
      vm_compute in a. vm_compute in b. unfold a, b. clear. cbn [filter a_point].
      destruct (1 =? p); destruct (2 =? p); reflexivity. }
    now rewrite E.
  - intro R. split; [vm_compute; reflexivity|]. split.
    + intros c Hc _. replace (length R) with 2%nat by (vm_compute; reflexivity).
      destruct Hc as [<-|[<-|[]]]; cbn; lia.
    + split.
      * intros r Hr. unfold R in Hr. vm_compute in Hr. destruct Hr as [<-|[<-|[]]]; reflexivity.
      * eexists. split; vm_compute; reflexivity.
Qed.

Lemma c161_refuted_lemma :
  exists rows downs downs',
    Permutation downs downs'
    /\ reduce_latencies (compute_latencies (sort_by o_end) (sort_by d_start) (sort_by l_observed) rows downs)
       <> reduce_latencies (compute_latencies (sort_by o_end) (sort_by d_start) (sort_by l_observed) rows downs').
Proof.
  exists [mk_obs 1 "s" "i" 0 5 10], [mk_down "a" "s" 20 30 25; mk_down "b" "s" 20 40 30],
    [mk_down "b" "s" 20 40 30; mk_down "a" "s" 20 30 25].
  split; [constructor|]. vm_compute. discriminate.
Qed.

Lemma c161_witness_lemma :
  let rows := [mk_obs 1 "s" "i" 0 5 10; mk_obs 2 "s" "i" 20 25 30; mk_obs 1 "s" "i" 31 32 33] in
  let downs := [mk_down "b" "s" 50 60 55; mk_down "a" "s" 12 20 16] in
  distinct_starts downs /\ Permutation rows (rev rows)
  /\ map (fun r => (lr_point r, option_map Qred (lr_latency r), lr_samples r))
       (reduce_latencies (compute_latencies (sort_by o_end) (sort_by d_start) (sort_by l_observed) rows downs))
     = [(1, Some 17%Q, 2); (2, Some 30%Q, 1)].
Proof.
  intros rows downs. split; [|split; [apply Permutation_rev | vm_compute; reflexivity]].
  intros d d' [<-|[<-|[]]] [<-|[<-|[]]]; cbn; try reflexivity; discriminate.
Qed.
