(** Proofs comparing the results of related coverage and latency analyses. *)
From Coq Require Import String ZArith QArith List Bool Sorting.Sorted Sorting.Permutation Lia Lqa.
From Verif Require Import Base BaseFacts Coverage_Model Coverage_Spec
  Coverage_Proofs1 Coverage_Proofs2 Coverage_Proofs3 Latency_Model Latency_Spec Latency_Proofs
  Growth_Spec.
Import ListNotations.
Open Scope Z_scope.

(** ** Intervals and their lengths *)

Lemma sorted_pair {A} (R : A -> A -> Prop) l x y :
  StronglySorted R l -> In x l -> In y l -> x = y \/ R x y \/ R y x.
Proof.
  induction 1 as [|a l S IH F]; cbn; [tauto|].
  intros [-> | Hx] [E | Hy].
  - now left.
  - rewrite Forall_forall in F. auto.
  - subst. rewrite Forall_forall in F. auto.
  - auto.
Qed.

Lemma inject_Z_le a b : (inject_Z a <= inject_Z b)%Q -> a <= b.
Proof. now rewrite <- Zle_Qle. Qed.

Lemma le_half a b : (inject_Z a <= inject_Z b + (1 # 2))%Q -> a <= b.
Proof. unfold inject_Z, Qle, Qplus; cbn. lia. Qed.

Lemma half_le a b : (inject_Z b + (1 # 2) <= inject_Z a)%Q -> b + 1 <= a.
Proof. unfold inject_Z, Qle, Qplus; cbn. lia. Qed.

Lemma half_le_inv a b : b + 1 <= a -> (inject_Z b + (1 # 2) <= inject_Z a)%Q.
Proof. unfold inject_Z, Qle, Qplus; cbn. lia. Qed.

Lemma le_half_inv a b : a <= b -> (inject_Z a <= inject_Z b + (1 # 2))%Q.
Proof. unfold inject_Z, Qle, Qplus; cbn. lia. Qed.

(** A connected set covered by separated intervals is inside one of them. *)
Lemma inside_one l s e :
  separated l -> s <= e ->
  (forall t : Q, (inject_Z s <= t)%Q -> (t <= inject_Z e)%Q -> covered l t) ->
  exists j, In j l /\ fst j <= s /\ e <= snd j.
Proof.
  intros [W S] Hse H.
  destruct (H (inject_Z s)) as (j & Hj & A & B).
  - apply Qle_refl.
  - now rewrite <- Zle_Qle.
  - apply inject_Z_le in A. apply inject_Z_le in B.
    exists j. split; [easy|]. split; [easy|].
    destruct (Z_le_gt_dec e (snd j)) as [L|G]; [easy|exfalso].
    destruct (H (inject_Z (snd j) + (1 # 2))%Q) as (k & Hk & C & D).
    + apply le_half_inv. easy.
    + apply half_le_inv. lia.
    + apply le_half in C. apply half_le in D.
      rewrite Forall_forall in W. pose proof (W j Hj). pose proof (W k Hk).
      destruct (sorted_pair _ _ _ _ S Hj Hk) as [E | [L | L]].
      * subst. lia.
      * lia.
      * lia.
Qed.

Definition len_sum (l : list (Z * Z)) : Z := fold_right Z.add 0 (map (fun i => snd i - fst i) l).

Lemma len_sum_app a b : len_sum (a ++ b) = len_sum a + len_sum b.
Proof. unfold len_sum. induction a as [|x a IH]; cbn in *; lia. Qed.

Lemma len_sum_nonneg l : Forall (fun i => fst i <= snd i) l -> 0 <= len_sum l.
Proof. unfold len_sum. induction 1; cbn in *; lia. Qed.

Lemma len_sum_inside : forall l l',
  separated l -> separated l' ->
  (forall i, In i l -> exists j, In j l' /\ fst j <= fst i /\ snd i <= snd j) ->
  len_sum l <= len_sum l'.
Proof.
  induction l as [|i r IH]; intros l' [W S] [W' S'] H.
  - now apply len_sum_nonneg.
  - destruct (H i (or_introl eq_refl)) as (j & Hj & A & B).
    apply in_split in Hj as (l1 & l2 & ->).
    inversion_clear W as [|? ? Wi Wr]. inversion S as [|? ? Sr Fr]; subst.
    rewrite Forall_forall in Fr.
    apply Forall_app in W' as [W1 W2]. inversion_clear W2 as [|? ? Wj W2'].
    apply StronglySorted_app_inv in S' as (S1 & S2 & S12).
    inversion S2 as [|? ? S2' F2]; subst.
    assert (K : len_sum r <= len_sum ((snd i, snd j) :: l2)).
    { apply IH.
      - now split.
      - split.
        + constructor; [cbn; lia | easy].
        + constructor; [easy|]. now cbn.
      - intros k Hk. destruct (H k (or_intror Hk)) as (j' & Hj' & A' & B').
        pose proof (Fr k Hk) as G. cbn in G.
        rewrite Forall_forall in Wr. pose proof (Wr k Hk).
        apply in_app_or in Hj' as [Hj' | [<- | Hj']].
        + pose proof (S12 j' j Hj' (or_introl eq_refl)). cbn in *. lia.
        + exists (snd i, snd j). cbn. repeat split; [now left | lia | lia].
        + exists j'. repeat split; [now right | lia | lia]. }
    rewrite len_sum_app. pose proof (len_sum_nonneg l1 W1).
    unfold len_sum in *. cbn in *. lia.
Qed.

(** ** More observations *)

Lemma total_access_len srt rows p :
  is_sort o_start srt -> proper rows ->
  total_access p (aggregate_observations srt rows)
  = len_sum (agg_intervals p (aggregate_observations srt rows)).
Proof.
  intros Hs Hp. unfold total_access, len_sum, agg_intervals, rows_of. rewrite map_map.
  f_equal. apply map_ext_in. intros a Ha. apply filter_In in Ha as [Ha _].
  cbn. now destruct (aggregate_access_lemma srt rows a Hs Hp Ha) as [-> _].
Qed.

Lemma covered_incl srt srt' rows rows' p t :
  is_sort o_start srt -> is_sort o_start srt' -> proper rows -> proper rows' ->
  (forall o, In o rows -> o_point o = p -> In o rows') ->
  covered (agg_intervals p (aggregate_observations srt rows)) t ->
  covered (agg_intervals p (aggregate_observations srt' rows')) t.
Proof.
  intros Hs Hs' Hp Hp' I C.
  apply aggregate_covered_lemma in C; try assumption.
  apply aggregate_covered_lemma; try assumption.
  destruct C as (i & Hi & A). exists i. split; [|assumption].
  unfold obs_intervals in *. apply in_map_iff in Hi as (o & <- & Ho).
  apply filter_In in Ho as [Ho E]. apply Z.eqb_eq in E.
  apply in_map_iff. exists o. split; [easy|]. apply filter_In. split; [auto|now apply Z.eqb_eq].
Qed.

Lemma interval_covers l i (t : Q) :
  In i l -> (inject_Z (fst i) <= t)%Q -> (t <= inject_Z (snd i))%Q -> covered l t.
Proof. intros. now exists i. Qed.

Lemma total_access_incl srt srt' rows rows' p :
  is_sort o_start srt -> is_sort o_start srt' -> proper rows -> proper rows' ->
  (forall o, In o rows -> o_point o = p -> In o rows') ->
  total_access p (aggregate_observations srt rows)
  <= total_access p (aggregate_observations srt' rows').
Proof.
  intros Hs Hs' Hp Hp' I. rewrite !total_access_len by assumption.
  pose proof (aggregate_separated_lemma srt rows p Hs Hp) as S.
  pose proof (aggregate_separated_lemma srt' rows' p Hs' Hp') as S'.
  apply len_sum_inside; try assumption.
  intros i Hi. apply inside_one; try assumption.
  - destruct S as [W _]. rewrite Forall_forall in W. auto.
  - intros t A B. apply (covered_incl srt srt' rows rows'); try assumption.
    now apply (interval_covers _ i).
Qed.

(** The gap before a record of a chained list is the gap between neighbours. *)
Lemma revisits_neighbour : forall l prev a g,
  revisits prev l -> In a l -> a_revisit a = Some g ->
  (prev = Some (a_start a - g) /\ (exists r, l = a :: r))
  \/ exists l1 b l2, l = l1 ++ b :: a :: l2 /\ a_end b = a_start a - g.
Proof.
  induction l as [|x l IH]; intros prev a g H Ha Hg; [easy|].
  cbn in H. destruct H as [H1 H2]. destruct Ha as [-> | Ha].
  - left. rewrite Hg in H1. destruct prev as [e|]; [|easy]. destruct H1 as [-> _].
    split; [f_equal; lia | now exists l].
  - right. destruct (IH _ _ _ H2 Ha Hg) as [[E (r & ->)] | (l1 & b & l2 & -> & E)].
    + injection E as E. now exists [], x, r.
    + now exists (x :: l1), b, l2.
Qed.

(** Separated list of rows: find the gap that contains an uncovered stretch. *)
Lemma gap_around : forall l prev s e,
  revisits prev l ->
  s < e ->
  (match prev with Some q => q <= s | None => exists a, In a l /\ a_start a <= s end) ->
  (exists a, In a l /\ e <= a_end a) ->
  Forall (fun a => a_start a <= a_end a) l ->
  StronglySorted (fun a b => a_end a < a_start b) l ->
  (forall a, In a l -> a_end a <= s \/ e <= a_start a) ->
  exists a g, In a l /\ a_revisit a = Some g /\ e - s <= g
    /\ a_start a - g <= s /\ e <= a_start a.
Proof.
  induction l as [|x l IH]; intros prev s e R Hse Hp (z & Hz & He) W S N; [easy|].
  cbn in R. destruct R as [R1 R2].
  inversion_clear W as [|? ? Wx Wl]. inversion S as [|? ? Sl Fx]; subst.
  rewrite Forall_forall in Fx, Wl.
  destruct (N x (or_introl eq_refl)) as [L | L].
  - destruct (IH (Some (a_end x)) s e) as (a & g & Ha & B).
    + assumption.
    + assumption.
    + assumption.
    + destruct Hz as [-> | Hz]; [lia | now exists z].
    + now apply Forall_forall.
    + assumption.
    + intros a Ha. apply N. now right.
    + exists a, g. split; [now right | assumption].
  - destruct prev as [q|].
    + destruct (a_revisit x) as [g|] eqn:G; [|easy]. destruct R1 as [-> _].
      exists x, (a_start x - q). repeat split; [now left | assumption | lia | lia | lia].
    + exfalso. destruct Hp as (a & [-> | Ha] & A); [lia|].
      specialize (Fx a Ha). lia.
Qed.

Lemma agg_rows_ordered srt rows p :
  is_sort o_start srt -> proper rows ->
  Forall (fun a => a_start a <= a_end a) (rows_of p (aggregate_observations srt rows))
  /\ StronglySorted (fun a b => a_end a < a_start b) (rows_of p (aggregate_observations srt rows)).
Proof.
  intros Hs Hp. destruct (aggregate_separated_lemma srt rows p Hs Hp) as [W S].
  unfold agg_intervals in *. fold (rows_of p (aggregate_observations srt rows)) in *.
  set (l := rows_of p (aggregate_observations srt rows)) in *. clearbody l.
  induction l as [|x l IH]; [split; constructor|].
  cbn in W, S. inversion_clear W as [|? ? Wx Wl]. inversion S as [|? ? Sl Fx]; subst.
  destruct (IH Wl Sl) as [A B]. split; constructor; try assumption.
  rewrite Forall_forall in *. intros y Hy.
  apply (Fx (a_start y, a_end y)). apply in_map_iff. now exists y.
Qed.

Lemma rows_of_in p rows a : In a (rows_of p rows) <-> In a rows /\ a_point a = p.
Proof. unfold rows_of. rewrite filter_In. now rewrite Z.eqb_eq. Qed.

Lemma agg_interval_in p rows a : In a (rows_of p rows) -> In (a_start a, a_end a) (agg_intervals p rows).
Proof. intro H. apply (in_map (fun a => (a_start a, a_end a)) _ _ H). Qed.

Lemma gap_incl srt srt' rows rows' p a' g' :
  is_sort o_start srt -> is_sort o_start srt' -> proper rows -> proper rows' ->
  (forall o, In o rows -> o_point o = p -> In o rows') ->
  In a' (rows_of p (aggregate_observations srt' rows')) -> a_revisit a' = Some g' ->
  (exists o, In o rows /\ o_point o = p /\ o_start o <= a_start a' - g') ->
  (exists o, In o rows /\ o_point o = p /\ a_start a' <= o_end o) ->
  exists a g, In a (rows_of p (aggregate_observations srt rows)) /\ a_revisit a = Some g
    /\ g' <= g /\ a_start a - g <= a_start a' - g' /\ a_start a' <= a_start a.
Proof.
  intros Hs Hs' Hp Hp' I Ha' Hg' (o1 & Ho1 & P1 & L1) (o2 & Ho2 & P2 & L2).
  pose proof (aggregate_revisits_lemma srt' rows' p Hs' Hp') as R'.
  pose proof (aggregate_revisits_lemma srt rows p Hs Hp) as R.
  fold (rows_of p (aggregate_observations srt' rows')) in R'.
  fold (rows_of p (aggregate_observations srt rows)) in R.
  destruct (agg_rows_ordered srt' rows' p Hs' Hp') as [W' S'].
  destruct (agg_rows_ordered srt rows p Hs Hp) as [W S].
  assert (B : forall o, In o rows -> o_point o = p ->
    exists a, In a (rows_of p (aggregate_observations srt rows))
      /\ a_start a <= o_start o /\ o_end o <= a_end a).
  { intros o Ho Po.
    destruct (inside_one (agg_intervals p (aggregate_observations srt rows)) (o_start o) (o_end o))
      as (j & Hj & A & B).
    - now apply aggregate_separated_lemma.
    - unfold proper in Hp. rewrite Forall_forall in Hp. auto.
    - intros t A B. apply aggregate_covered_lemma; try assumption.
      exists (o_start o, o_end o). split; [|easy]. unfold obs_intervals.
      apply in_map_iff. exists o. split; [easy|]. apply filter_In.
      split; [easy | now apply Z.eqb_eq].
    - unfold agg_intervals in Hj. apply in_map_iff in Hj as (a & <- & Ha). now exists a. }
  destruct (revisits_neighbour _ _ _ _ R' Ha' Hg') as [[E _] | (l1 & b & l2 & E & Eb)]; [easy|].
  assert (G : 0 < g').
  { rewrite E in S'. apply StronglySorted_app_inv in S' as (_ & S' & _).
    inversion S' as [|? ? _ F]; subst. inversion_clear F as [|? ? F1 _]. lia. }
  destruct (gap_around (rows_of p (aggregate_observations srt rows)) None
    (a_start a' - g') (a_start a')) as (a & g & Ha & Hg & A1 & A2 & A3); try assumption.
  - lia.
  - destruct (B o1 Ho1 P1) as (a & Ha & A & _). exists a. split; [easy | lia].
  - destruct (B o2 Ho2 P2) as (a & Ha & _ & A). exists a. split; [easy | lia].
  - intros a Ha.
    (* a is inside one of the larger frame's records, which is before or after the gap *)
    destruct (inside_one (agg_intervals p (aggregate_observations srt' rows'))
                (a_start a) (a_end a)) as (j & Hj & A & C).
    + now apply aggregate_separated_lemma.
    + rewrite Forall_forall in W. auto.
    + intros t T1 T2. apply (covered_incl srt srt' rows rows'); try assumption.
      apply (interval_covers _ (a_start a, a_end a)); [now apply agg_interval_in | easy | easy].
    + unfold agg_intervals in Hj. apply in_map_iff in Hj as (y & <- & Hy).
      fold (rows_of p (aggregate_observations srt' rows')) in Hy. cbn in A, C.
      rewrite E in Hy, S', W'. apply StronglySorted_app_inv in S' as (_ & S2 & S12).
      inversion S2 as [|? ? S3 F2]; subst. inversion S3 as [|? ? S4 F3]; subst.
      rewrite Forall_forall in F3, W'.
      apply in_app_or in Hy as [Hy | [<- | [<- | Hy]]].
      * left. pose proof (S12 y b Hy (or_introl eq_refl)) as Q. cbn in Q.
        assert (a_start b <= a_end b) by (apply W', in_or_app; right; now left). lia.
      * left. lia.
      * right. lia.
      * right. specialize (F3 y Hy). cbn in F3.
        assert (a_start a' <= a_end a') by (apply W', in_or_app; right; right; now left). lia.
  - exists a, g. repeat split; try assumption; lia.
Qed.

(** ** More downlinks *)

Lemma latency_incl srt_o srt_d srt_l srt_o' srt_d' srt_l' rows downs downs' row v :
  is_sort o_end srt_o -> is_sort d_start srt_d -> is_sort l_observed srt_l ->
  is_sort o_end srt_o' -> is_sort d_start srt_d' -> is_sort l_observed srt_l' ->
  incl downs downs' ->
  In row (compute_latencies srt_o srt_d srt_l rows downs) -> l_latency row = Some v ->
  exists row' v' d d', In row' (compute_latencies srt_o' srt_d' srt_l' rows downs')
    /\ l_point row' = l_point row /\ l_sat row' = l_sat row /\ l_inst row' = l_inst row
    /\ l_observed row' = l_observed row
    /\ l_latency row' = Some v'
    /\ In d downs /\ l_downlinked row = Some (d_epoch d) /\ d_sat d = l_sat row
    /\ In d' downs' /\ l_downlinked row' = Some (d_epoch d') /\ d_sat d' = l_sat row
    /\ d_start d' <= d_start d
    /\ (no_overtaking downs' -> v' <= v).
Proof.
  intros HO HD HL HO' HD' HL' I Hrow Hv.
  destruct rows as [|o0 rows0] eqn:ER; [destruct Hrow|].
  destruct downs as [|d0 downs0] eqn:ED; [destruct Hrow|]. rewrite <- ER, <- ED in *.
  destruct (compute_latencies_lemma srt_o srt_d srt_l rows downs HO HD HL) as [q [P [F _]]];
    try (subst; discriminate).
  assert (ND : downs' <> []).
  { intros ->. apply (I d0). rewrite ED. now left. }
  destruct (compute_latencies_lemma srt_o' srt_d' srt_l' rows downs' HO' HD' HL') as [q' [P' [F' _]]];
    try (subst; discriminate); [assumption|].
  destruct (Forall2_in_r _ _ _ _ F Hrow) as [o [Ho R]].
  apply (Permutation_in _ (Permutation_sym P)), (Permutation_in _ P') in Ho.
  destruct (Forall2_in_l _ _ _ _ F' Ho) as [row' [Hr' R']].
  destruct R as (E1 & E2 & E3 & E4 & [(d & Hd & U & M & _ & Dl & E)|(_ & _ & _ & E)]); [|congruence].
  destruct R' as (G1 & G2 & G3 & G4 & [(d' & Hd' & U' & M' & _ & Dl' & G)|(N & _ & _ & _)]).
  - exists row', (d_epoch d' - o_epoch o), d, d'.
    assert (L : d_start d' <= d_start d) by (apply M'; auto).
    destruct U as [U1 _], U' as [U1' _].
    repeat split; try congruence; try assumption.
    intro NO. rewrite E in Hv. injection Hv as <-.
    assert (d_epoch d' <= d_epoch d) by (apply NO; auto; congruence). lia.
  - exfalso. apply (N d); auto.
Qed.

Lemma downlinks_incl srt srt' sat periods stations stations' :
  is_sort d_start srt -> is_sort d_start srt' -> incl stations stations' ->
  incl (collect_downlinks srt sat periods stations) (collect_downlinks srt' sat periods stations').
Proof.
  intros HS HS' I d. rewrite (proj1 (proj2 (collect_downlinks_lemma srt sat periods stations HS))).
  rewrite (proj1 (proj2 (collect_downlinks_lemma srt' sat periods stations' HS'))).
  intros (s & l & r & Hs & H). exists s, l, r. split; [auto | exact H].
Qed.

(** ** Stricter requirements *)

Lemma sublist_filter {A} (f g : A -> bool) l :
  (forall x, In x l -> f x = true -> g x = true) -> sublist (filter f l) (filter g l).
Proof.
  induction l as [|x l IH]; intro H; cbn; [constructor|].
  assert (IH' : sublist (filter f l) (filter g l)) by (apply IH; intros; apply H; [now right | easy]).
  destruct (f x) eqn:F.
  - rewrite (H x (or_introl eq_refl) F). now constructor.
  - destruct (g x); [now constructor | assumption].
Qed.

Lemma sublist_map {A B} (f : A -> B) l l' : sublist l' l -> sublist (map f l') (map f l).
Proof. induction 1; cbn; now constructor. Qed.

Lemma sublist_in {A} (l l' : list A) x : sublist l' l -> In x l' -> In x l.
Proof. induction 1; cbn; [easy | | auto]. intros [-> | H']; auto. Qed.

Lemma stricter_lemma pid sat inst a a' valid valid' fp fp' periods :
  acc_fixed a' = acc_fixed a -> (acc_fixed a = true -> acc_min a' = acc_min a) ->
  acc_min a <= acc_min a' ->
  (forall t, valid' t = true -> valid t = true) ->
  (forall t c, fp = Some c -> exists c', fp' = Some c' /\ (c' t = true -> c t = true)) ->
  sublist (collect_observations pid sat inst a' valid' fp' periods)
          (collect_observations pid sat inst a valid fp periods).
Proof.
  intros EF EM L V F. unfold collect_observations.
  replace (map (mk_record pid sat inst a') (filter (keep_period a' valid' fp') periods))
    with (map (mk_record pid sat inst a) (filter (keep_period a' valid' fp') periods)).
  - apply sublist_map, sublist_filter. intros p _. unfold keep_period.
    rewrite !andb_true_iff, !Z.leb_le. intros [[A B] C]. repeat split; [lia | auto |].
    destruct fp as [c|]; [|reflexivity].
    destruct (F (interval_mid p) c eq_refl) as (c' & E & H). rewrite E in C. auto.
  - apply map_ext. intro p. unfold mk_record. rewrite EF.
    destruct (acc_fixed a); cbn; [|reflexivity]. now rewrite EM.
Qed.

Lemma collect_proper pid sat inst a valid fp periods :
  0 <= acc_min a -> (forall i, In i periods -> fst i <= snd i) ->
  proper (collect_observations pid sat inst a valid fp periods).
Proof.
  intros M W. unfold proper, collect_observations. rewrite Forall_forall.
  intros o Ho. apply in_map_iff in Ho as (p & <- & Hp). apply filter_In in Hp as [Hp _].
  specialize (W p Hp). unfold mk_record. cbn.
  assert (0 <= timedelta_half (acc_min a)).
  { unfold timedelta_half. assert (0 <= acc_min a / 2) by (apply Z.div_pos; lia).
    destruct (_ =? 0); [lia|]. destruct (Z.even _); lia. }
  destruct (acc_fixed a); cbn; lia.
Qed.

(** ** Splitting the period of analysis *)

Lemma above_app_left : forall e1 e2 b t,
  Forall (fun e => t <= fst e) e2 -> above b (e1 ++ e2) t = above b e1 t.
Proof.
  induction e1 as [|[te e] e1 IH]; intros e2 b t H; cbn.
  - destruct e2 as [|[te e] e2]; [reflexivity|]. cbn. inversion_clear H as [|? ? A _]. cbn in A.
    destruct (te <? t) eqn:E; [apply Z.ltb_lt in E; lia | reflexivity].
  - destruct (te <? t); [now apply IH | reflexivity].
Qed.

Lemma above_app_right : forall e1 e2 b t,
  Forall (fun e => fst e < t) e1 -> above b (e1 ++ e2) t = above (state_after b e1) e2 t.
Proof.
  induction e1 as [|[te e] e1 IH]; intros e2 b t H; [reflexivity|].
  inversion_clear H as [|? ? A B]. cbn in A. cbn.
  rewrite (proj2 (Z.ltb_lt _ _) A). destruct e; cbn; now apply IH.
Qed.

Lemma alternates_app : forall e1 e2 b,
  alternates b (e1 ++ e2) -> alternates b e1 /\ alternates (state_after b e1) e2.
Proof.
  induction e1 as [|[te e] e1 IH]; intros e2 b H; [now split|].
  cbn in *. destruct e; destruct H as [-> H]; apply IH in H as [H1 H2]; auto.
Qed.

Lemma short_weaken : forall ev d since, short_passes d since ev -> short_passes d None ev.
Proof.
  induction ev as [|[t e] ev IH]; intros d since H; [easy|].
  cbn in *. destruct e; [easy | eauto | tauto].
Qed.

Lemma short_app : forall e1 e2 d since,
  short_passes d since (e1 ++ e2) -> short_passes d since e1 /\ short_passes d None e2.
Proof.
  induction e1 as [|[t e] e1 IH]; intros e2 d since H.
  - split; [easy | now apply short_weaken in H].
  - cbn in *. destruct e; [apply IH in H; tauto | apply IH in H; tauto |].
    destruct H as [H1 H2]. apply IH in H2. tauto.
Qed.

Lemma split_lemma start mid end_ maxacc ev1 ev2 b :
  start <= mid <= end_ -> ev1 <> [] -> ev2 <> [] ->
  chronological (ev1 ++ ev2) -> in_window start mid ev1 -> in_window (mid + 1) end_ ev2 ->
  alternates b (ev1 ++ ev2) -> short_passes (2 * maxacc) None (ev1 ++ ev2) ->
  exists iv iv1 iv2,
    visible_intervals start end_ maxacc (ev1 ++ ev2) = Ok iv
    /\ visible_intervals start mid maxacc ev1 = Ok iv1
    /\ visible_intervals mid end_ maxacc ev2 = Ok iv2
    /\ forall t, start < t <= end_ -> (in_some iv t <-> in_some iv1 t \/ in_some iv2 t).
Proof.
  intros [L1 L2] N1 N2 C W1 W2 A S.
  assert (W2' : in_window mid end_ ev2).
  { unfold in_window in *. eapply Forall_impl; [|exact W2]. cbn. intros; lia. }
  assert (W : in_window start end_ (ev1 ++ ev2)).
  { unfold in_window in *. apply Forall_app. split.
    - eapply Forall_impl; [|exact W1]. cbn. intros; lia.
    - eapply Forall_impl; [|exact W2]. cbn. intros; lia. }
  pose proof (StronglySorted_app_inv _ _ _ C) as (C1 & C2 & _).
  destruct (alternates_app _ _ _ A) as [A1 A2].
  destruct (short_app _ _ _ _ S) as [S1 S2].
  destruct (visible_exact_lemma start end_ maxacc (ev1 ++ ev2) b) as (iv & E & H); try assumption; try lia.
  { destruct ev1; [easy | discriminate]. }
  destruct (visible_exact_lemma start mid maxacc ev1 b) as (iv1 & E1 & H1); try assumption; try lia.
  destruct (visible_exact_lemma mid end_ maxacc ev2 (state_after b ev1)) as (iv2 & E2 & H2);
    try assumption; try lia.
  exists iv, iv1, iv2. repeat split; try assumption.
  - intro I. apply H in I; [|lia]. destruct (Z_le_gt_dec t mid) as [T|T].
    + left. apply H1; [lia|]. rewrite <- I. symmetry. apply above_app_left.
      unfold in_window in W2. eapply Forall_impl; [|exact W2]. cbn. intros; lia.
    + right. apply H2; [lia|]. rewrite <- I. symmetry. apply above_app_right.
      unfold in_window in W1. eapply Forall_impl; [|exact W1]. cbn. intros; lia.
  - intros [I | I].
    + destruct (visible_general start mid maxacc ev1) as (iv1' & E1' & G); [lia | assumption |].
      rewrite E1 in E1'. injection E1' as <-.
      assert (T : t <= mid).
      { destruct I as (i & Hi & Ti). rewrite Forall_forall in G. specialize (G i Hi). lia. }
      apply H; [lia|]. apply H1 in I; [|lia]. rewrite above_app_left; [exact I|].
      unfold in_window in W2. eapply Forall_impl; [|exact W2]. cbn. intros; lia.
    + destruct (visible_general mid end_ maxacc ev2) as (iv2' & E2' & G); [lia | assumption |].
      rewrite E2 in E2'. injection E2' as <-.
      assert (T : mid < t).
      { destruct I as (i & Hi & Ti). rewrite Forall_forall in G. specialize (G i Hi). lia. }
      apply H; [lia|]. apply H2 in I; [|lia]. rewrite above_app_right; [exact I|].
      unfold in_window in W1. eapply Forall_impl; [|exact W1]. cbn. intros; lia.
Qed.

(** ** Shifting the time origin *)

Lemma mk_interval_later d l r :
  mk_interval (l + d) (r + d)
  = match mk_interval l r with Ok i => Ok (fst i + d, snd i + d) | Raise e => Raise e end.
Proof.
  unfold mk_interval. destruct (l <=? r) eqn:E.
  - rewrite (proj2 (Z.leb_le _ _)); [reflexivity|]. apply Z.leb_le in E. lia.
  - rewrite (proj2 (Z.leb_gt _ _)); [reflexivity|]. apply Z.leb_gt in E. lia.
Qed.

Lemma times_of_later d p ev : times_of p (later_events d ev) = map (fun t => t + d) (times_of p ev).
Proof.
  unfold times_of, later_events. induction ev as [|e ev IH]; [reflexivity|].
  cbn. destruct (p (snd e)); cbn; congruence.
Qed.

Lemma ltb_later x y d : (x + d <? y + d) = (x <? y).
Proof. destruct (x <? y) eqn:E; [apply Z.ltb_lt in E; apply Z.ltb_lt; lia | apply Z.ltb_ge in E; apply Z.ltb_ge; lia]. Qed.

Lemma matching_later d m r sets :
  matching_sets m (r + d) (map (fun t => t + d) sets) = map (fun t => t + d) (matching_sets m r sets).
Proof.
  unfold matching_sets. induction sets as [|s sets IH]; [reflexivity|].
  cbn [map filter]. rewrite ltb_later.
  replace (s + d <? r + d + 2 * m) with (s <? r + 2 * m).
  - destruct ((r <? s) && (s <? r + 2 * m)); cbn [map]; now rewrite IH.
  - replace (r + d + 2 * m) with (r + 2 * m + d) by lia. now rewrite ltb_later.
Qed.

Definition later_res (d : Z) (x : pyres (list (Z * Z))) : pyres (list (Z * Z)) :=
  match x with Ok iv => Ok (later_intervals d iv) | Raise e => Raise e end.

Lemma leading_later d start rises sets :
  leading_set (start + d) (map (fun t => t + d) rises) (map (fun t => t + d) sets)
  = later_res d (leading_set start rises sets).
Proof.
  unfold leading_set. destruct sets as [|s sets]; [reflexivity|]. cbn [map].
  rewrite ltb_later.
  replace (match map (fun t => t + d) rises with [] => true | r :: _ => s + d <? r end)
    with (match rises with [] => true | r :: _ => s <? r end)
    by (destruct rises; cbn; [reflexivity | now rewrite ltb_later]).
  destruct (_ && _); [|reflexivity].
  rewrite mk_interval_later. now destruct (mk_interval start s).
Qed.

Lemma last_opt_map d l : last_opt (map (fun t => t + d) l) = option_map (fun t => t + d) (last_opt l).
Proof. unfold last_opt. rewrite <- map_rev. now destruct (rev l). Qed.

Lemma trailing_later d end_ rises sets :
  trailing_rise (end_ + d) (map (fun t => t + d) rises) (map (fun t => t + d) sets)
  = later_res d (trailing_rise end_ rises sets).
Proof.
  unfold trailing_rise. rewrite !last_opt_map.
  destruct (last_opt rises) as [r|]; [|reflexivity]. cbn.
  rewrite ltb_later.
  replace (match option_map (fun t => t + d) (last_opt sets) with None => true | Some s => s <? r + d end)
    with (match last_opt sets with None => true | Some s => s <? r end)
    by (destruct (last_opt sets); cbn; [now rewrite ltb_later | reflexivity]).
  destruct (_ && _); [|reflexivity].
  rewrite mk_interval_later. now destruct (mk_interval r end_).
Qed.

Lemma mapM_later d (f g : Z -> pyres (Z * Z)) l :
  (forall r, g (r + d) = match f r with Ok i => Ok (fst i + d, snd i + d) | Raise e => Raise e end) ->
  mapM g (map (fun t => t + d) l) = later_res d (mapM f l).
Proof.
  intro H. induction l as [|x l IH]; [reflexivity|].
  cbn. rewrite H, IH. destruct (f x); [|reflexivity]. cbn. now destruct (mapM f l).
Qed.

Lemma rise_later d m rises sets :
  rise_periods m (map (fun t => t + d) rises) (map (fun t => t + d) sets)
  = later_res d (rise_periods m rises sets).
Proof.
  unfold rise_periods.
  rewrite <- (mapM_later d) with
    (g := fun r => match matching_sets m r (map (fun t => t + d) sets) with
                   | s :: _ => mk_interval r s | [] => Raise IndexError end).
  - f_equal. induction rises as [|r rises IH]; [reflexivity|].
    cbn [map filter]. rewrite matching_later.
    destruct (matching_sets m r sets); cbn [map]; [exact IH | now rewrite IH].
  - intro r. rewrite matching_later.
    destruct (matching_sets m r sets); cbn [map]; [reflexivity | apply mk_interval_later].
Qed.

Lemma later_app d a b : later_intervals d (a ++ b) = later_intervals d a ++ later_intervals d b.
Proof. apply map_app. Qed.

Lemma visible_later d start end_ maxacc ev :
  visible_intervals (start + d) (end_ + d) maxacc (later_events d ev)
  = later_res d (visible_intervals start end_ maxacc ev).
Proof.
  unfold visible_intervals. destruct ev as [|e ev]; [reflexivity|].
  replace (forallb (fun x => is_culm (snd x)) (later_events d (e :: ev)))
    with (forallb (fun x => is_culm (snd x)) (e :: ev)).
  - cbn [later_events map]. fold (later_events d ev).
    destruct (forallb _ _).
    + rewrite mk_interval_later. now destruct (mk_interval start end_).
    + change ((fst e + d, snd e) :: later_events d ev) with (later_events d (e :: ev)).
      rewrite !times_of_later, leading_later, rise_later, trailing_later.
      destruct (leading_set _ _ _) as [a|]; [|reflexivity]. cbn [bind later_res].
      destruct (rise_periods _ _ _) as [b|]; [|reflexivity]. cbn [bind later_res].
      destruct (trailing_rise _ _ _) as [c|]; [|reflexivity]. cbn [bind later_res].
      now rewrite !later_app.
  - generalize (e :: ev). intro l. induction l as [|x l IH]; [reflexivity|].
    cbn. now rewrite IH.
Qed.

Lemma mid_later d i : interval_mid (fst i + d, snd i + d) = interval_mid i + d.
Proof. unfold interval_mid. cbn. replace (snd i + d - (fst i + d)) with (snd i - fst i) by lia. lia. Qed.

Lemma collect_later d pid sat inst a valid fp periods :
  collect_observations pid sat inst a (fun t => valid (t - d))
    (option_map (fun c t => c (t - d)) fp) (later_intervals d periods)
  = map (later_obs d) (collect_observations pid sat inst a valid fp periods).
Proof.
  unfold collect_observations, later_intervals. induction periods as [|i l IH]; [reflexivity|].
  cbn [map filter].
  replace (keep_period a (fun t => valid (t - d)) (option_map (fun c t => c (t - d)) fp)
             (fst i + d, snd i + d)) with (keep_period a valid fp i).
  - destruct (keep_period a valid fp i); [|exact IH]. cbn [map]. rewrite IH. f_equal.
    unfold mk_record, later_obs. rewrite mid_later. cbn.
    destruct (acc_fixed a); cbn; f_equal; lia.
  - unfold keep_period. rewrite mid_later. cbn [fst snd].
    replace (snd i + d - (fst i + d)) with (snd i - fst i) by lia.
    replace (interval_mid i + d - d) with (interval_mid i) by lia.
    destruct fp as [c|]; cbn; [|reflexivity].
    now replace (interval_mid i + d - d) with (interval_mid i) by lia.
Qed.

Lemma separated_later d l : separated l -> separated (later_intervals d l).
Proof.
  intros [W S]. induction l as [|i l IH]; [split; constructor|].
  inversion_clear W as [|? ? Wi Wl]. inversion S as [|? ? Sl Fi]; subst.
  destruct (IH Wl Sl) as [A B]. split; constructor; try assumption; cbn; [lia|].
  rewrite Forall_forall in *. intros j Hj. unfold later_intervals in Hj.
  apply in_map_iff in Hj as (k & <- & Hk). specialize (Fi k Hk). cbn. lia.
Qed.

Lemma covered_later_iff d l (t : Q) : covered (later_intervals d l) t <-> covered l (t - inject_Z d).
Proof.
  unfold covered, later_intervals. split.
  - intros (i & Hi & A & B). apply in_map_iff in Hi as (j & <- & Hj). cbn in A, B.
    exists j. rewrite inject_Z_plus in A, B. repeat split; [easy | lra | lra].
  - intros (j & Hj & A & B). exists (fst j + d, snd j + d).
    split; [apply in_map_iff; now exists j|]. cbn. rewrite !inject_Z_plus. split; lra.
Qed.

Lemma obs_intervals_later d p rows :
  obs_intervals p (map (later_obs d) rows) = later_intervals d (obs_intervals p rows).
Proof.
  unfold obs_intervals, later_intervals. induction rows as [|o rows IH]; [reflexivity|].
  cbn. destruct (o_point o =? p); cbn; [now rewrite IH | exact IH].
Qed.

Lemma aggregate_later srt srt' d rows p :
  is_sort o_start srt -> is_sort o_start srt' -> proper rows ->
  agg_intervals p (aggregate_observations srt' (map (later_obs d) rows))
  = later_intervals d (agg_intervals p (aggregate_observations srt rows)).
Proof.
  intros HS HS' HP.
  assert (HP' : proper (map (later_obs d) rows)).
  { unfold proper in *. rewrite Forall_forall in *. intros o Ho.
    apply in_map_iff in Ho as (x & <- & Hx). specialize (HP x Hx). cbn. lia. }
  apply separated_unique.
  - now apply aggregate_separated_lemma.
  - now apply separated_later, aggregate_separated_lemma.
  - intro t. rewrite covered_later_iff.
    rewrite !aggregate_covered_lemma by assumption.
    rewrite obs_intervals_later. apply covered_later_iff.
Qed.

(** The access and revisit columns are determined by the intervals. *)
Lemma columns_of_intervals : forall l l' prev prev',
  revisits prev l -> revisits prev' l' ->
  Forall (fun a => a_access a = a_end a - a_start a) l ->
  Forall (fun a => a_access a = a_end a - a_start a) l' ->
  forall d,
  prev' = option_map (fun e => e + d) prev ->
  map (fun a => (a_start a, a_end a)) l'
  = later_intervals d (map (fun a => (a_start a, a_end a)) l) ->
  map (fun a => (a_access a, a_revisit a)) l' = map (fun a => (a_access a, a_revisit a)) l.
Proof.
  induction l as [|a l IH]; intros l' prev prev' R R' A A' d E EI.
  - destruct l'; [reflexivity | discriminate].
  - destruct l' as [|a' l']; [discriminate|].
    cbn in EI. injection EI as E1 E2 E3.
    cbn in R, R'. destruct R as [R1 R2], R' as [R1' R2'].
    inversion_clear A as [|? ? Aa Al]. inversion_clear A' as [|? ? Aa' Al'].
    cbn. f_equal.
    + f_equal; [lia|]. destruct prev as [e|]; cbn in E; subst prev'.
      * destruct (a_revisit a), (a_revisit a'); try easy.
        destruct R1 as [-> _], R1' as [-> _]. f_equal. lia.
      * now destruct (a_revisit a), (a_revisit a').
    + apply (IH l' (Some (a_end a)) (Some (a_end a'))) with (d := d); try assumption.
      cbn. now rewrite E2.
Qed.

Lemma aggregate_later_columns srt srt' d rows p :
  is_sort o_start srt -> is_sort o_start srt' -> proper rows ->
  map (fun a => (a_access a, a_revisit a))
    (rows_of p (aggregate_observations srt' (map (later_obs d) rows)))
  = map (fun a => (a_access a, a_revisit a)) (rows_of p (aggregate_observations srt rows)).
Proof.
  intros HS HS' HP.
  assert (HP' : proper (map (later_obs d) rows)).
  { unfold proper in *. rewrite Forall_forall in *. intros o Ho.
    apply in_map_iff in Ho as (x & <- & Hx). specialize (HP x Hx). cbn. lia. }
  apply (columns_of_intervals _ _ None None) with (d := d).
  - now apply aggregate_revisits_lemma.
  - now apply aggregate_revisits_lemma.
  - rewrite Forall_forall. intros a Ha. apply rows_of_in in Ha as [Ha _].
    now apply (aggregate_access_lemma srt rows).
  - rewrite Forall_forall. intros a Ha. apply rows_of_in in Ha as [Ha _].
    now apply (aggregate_access_lemma srt' (map (later_obs d) rows)).
  - reflexivity.
  - apply aggregate_later; assumption.
Qed.

(** ** Observations of more satellites *)

Lemma multi_incl {C S} srt srt' (members : C -> list S) n_inst collect sats sats' out out' :
  is_sort o_start srt -> is_sort o_start srt' -> incl sats sats' ->
  collect_multi_observations srt members n_inst collect sats = Ok out ->
  collect_multi_observations srt' members n_inst collect sats' = Ok out' ->
  incl out out'.
Proof.
  intros HS HS' I E E' o Ho.
  apply multi_sorted_union in E as [_ P]; [|assumption].
  apply multi_sorted_union in E' as [_ P']; [|assumption].
  apply (Permutation_in _ P) in Ho. apply (Permutation_in _ (Permutation_sym P')).
  apply in_concat in Ho as (l & Hl & Ho). apply in_concat. exists l. split; [|assumption].
  apply in_flat_map in Hl as (c & Hc & Hl). apply in_flat_map. exists c. auto.
Qed.

(** Sort functions on the two-element and three-element frames of the witnesses. *)
Lemma sort_ok_o : is_sort o_start (sort_by o_start).
Proof. apply sort_by_is_sort. Qed.
