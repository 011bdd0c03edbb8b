(** Proofs about downlink latency. *)
From Coq Require Import String ZArith QArith List Bool Sorting.Sorted Sorting.Permutation Lia Lqa.
From Verif Require Import Base BaseFacts Coverage_Model Coverage_Spec Coverage_Proofs2
  Coverage_Proofs3 Latency_Model Latency_Spec.
Import ListNotations.
Open Scope Z_scope.

Lemma find_first_sorted {A} (key : A -> Z) (f : A -> bool) l d :
  StronglySorted (key_le key) l -> find f l = Some d ->
  In d l /\ f d = true /\ forall d', In d' l -> f d' = true -> key d <= key d'.
Proof.
  induction 1 as [|x r Hr IH Hx]; simpl; [discriminate|].
  destruct (f x) eqn:E.
  - intros [= <-]. split; [now left|]. split; [assumption|].
    intros d' [<-|Hd'] _; [lia|]. rewrite Forall_forall in Hx. apply (Hx _ Hd').
  - intro H. destruct (IH H) as [H1 [H2 H3]]. split; [now right|]. split; [assumption|].
    intros d' [<-|Hd'] Hf; [congruence|]. auto.
Qed.

Lemma usable_b o d :
  String.eqb (d_sat d) (o_sat o) && (o_end o <=? d_start d) = true <-> usable o d.
Proof. unfold usable. rewrite andb_true_iff, String.eqb_eq, Z.leb_le. tauto. Qed.

Lemma latency_of_record srt_d downs o :
  is_sort d_start srt_d -> latency_record downs o (latency_of (srt_d downs) o).
Proof.
  intro HS. destruct (HS downs) as [P S].
  assert (IN : forall d, In d (srt_d downs) <-> In d downs).
  { intro d; split; apply Permutation_in; [|symmetry]; assumption. }
  unfold latency_record, latency_of, asof_forward.
  destruct (find _ (srt_d downs)) as [d|] eqn:E.
  - repeat split; try reflexivity. left. exists d.
    apply (find_first_sorted d_start) in E as [H1 [H2 H3]]; [|assumption].
    split; [now apply IN|]. split; [now apply usable_b|]. split.
    + intros d' Hd' Hu. apply H3; [now apply IN|now apply usable_b].
    + repeat split; reflexivity.
  - repeat split; try reflexivity. right. split; [|repeat split; reflexivity].
    intros d Hd Hu. apply IN in Hd. apply usable_b in Hu.
    pose proof (find_none _ _ E _ Hd) as Hn. cbv beta in Hn. congruence.
Qed.

Lemma Forall2_map_r {A B} (f : A -> B) (P : A -> B -> Prop) l :
  (forall x, P x (f x)) -> Forall2 P l (map f l).
Proof. intro H. induction l; simpl; constructor; auto. Qed.

Lemma Forall2_perm_r {A B} (P : A -> B -> Prop) l m m' :
  Permutation m m' -> Forall2 P l m -> exists l', Permutation l l' /\ Forall2 P l' m'.
Proof.
  intro H. revert l. induction H; intros k HF.
  - inversion HF; subst. exists []. split; [constructor|constructor].
  - inversion HF as [|a ? k' ? Pa Pk]; subst. destruct (IHPermutation _ Pk) as [k2 [P2 F2]].
    exists (a :: k2). split; constructor; assumption.
  - inversion HF as [|a ? k' ? Pa Pk]; subst. inversion Pk as [|b ? k2 ? Pb Pk2]; subst.
    exists (b :: a :: k2). split; [apply perm_swap|]. repeat constructor; assumption.
  - destruct (IHPermutation1 _ HF) as [k2 [P2 F2]].
    destruct (IHPermutation2 _ F2) as [k3 [P3 F3]].
    exists k3. split; [etransitivity; eassumption|assumption].
Qed.

Lemma compute_latencies_lemma srt_o srt_d srt_l rows downs :
  is_sort o_end srt_o -> is_sort d_start srt_d -> is_sort l_observed srt_l ->
  rows <> [] -> downs <> [] ->
  exists rows', Permutation rows rows'
    /\ Forall2 (latency_record downs) rows' (compute_latencies srt_o srt_d srt_l rows downs)
    /\ StronglySorted (fun a b => l_observed a <= l_observed b)
         (compute_latencies srt_o srt_d srt_l rows downs).
Proof.
  intros HO HD HL NR ND. unfold compute_latencies.
  destruct rows as [|o0 rows0] eqn:ER; [congruence|]. rewrite <- ER in *. clear ER NR.
  destruct downs as [|d0 downs0] eqn:ED; [congruence|]. rewrite <- ED in *. clear ED ND.
  set (m := map (latency_of (srt_d downs)) (srt_o rows)).
  assert (F : Forall2 (latency_record downs) (srt_o rows) m)
    by (apply Forall2_map_r; intro; now apply latency_of_record).
  destruct (HL m) as [PL SL]. destruct (HO rows) as [PO _].
  destruct (Forall2_perm_r _ _ _ _ (Permutation_sym PL) F) as [rows' [P' F']].
  exists rows'. split; [|split; assumption].
  rewrite <- P'. now symmetry.
Qed.

Lemma latency_nonneg_lemma srt_o srt_d srt_l rows downs row v :
  is_sort o_end srt_o -> is_sort d_start srt_d -> is_sort l_observed srt_l ->
  (forall o, In o rows -> o_epoch o <= o_end o) ->
  (forall d, In d downs -> d_start d <= d_epoch d) ->
  In row (compute_latencies srt_o srt_d srt_l rows downs) ->
  l_latency row = Some v -> 0 <= v.
Proof.
  intros HO HD HL H1 H2 Hrow Hv.
  destruct rows as [|o0 rows0] eqn:ER; [destruct Hrow|].
  destruct downs as [|d0 downs0] eqn:ED; [destruct Hrow|]. rewrite <- ER, <- ED in *.
  destruct (compute_latencies_lemma srt_o srt_d srt_l rows downs HO HD HL) as [rows' [P [F _]]];
    try (subst; discriminate).
  destruct (Forall2_in_r _ _ _ _ F Hrow) as [o [Ho R]].
  apply (Permutation_in _ (Permutation_sym P)) in Ho.
  destruct R as (_ & _ & _ & _ & [(d & Hd & [_ Hu] & _ & _ & _ & E)|(_ & _ & _ & E)]).
  - rewrite E in Hv. injection Hv as <-. specialize (H1 _ Ho). specialize (H2 _ Hd). lia.
  - congruence.
Qed.

Lemma collect_downlinks_lemma srt sat periods stations :
  is_sort d_start srt ->
  StronglySorted (fun a b => d_start a <= d_start b) (collect_downlinks srt sat periods stations)
  /\ (forall d, In d (collect_downlinks srt sat periods stations) <->
        exists s l r, In s stations /\ In (l, r) (periods s) /\ st_min_access s <= r - l
          /\ d = mk_down (st_name s) sat l r (l + (r - l) / 2))
  /\ Permutation (collect_downlinks srt sat periods stations)
       (flat_map (fun s => collect_downlinks srt sat periods [s]) stations).
Proof.
  intro HS. unfold collect_downlinks.
  set (f := fun s => map (fun p => mk_down (st_name s) sat (fst p) (snd p) (interval_mid p))
                       (filter (fun p => st_min_access s <=? snd p - fst p) (periods s))).
  destruct (HS (flat_map f stations)) as [P S]. split; [exact S|]. split.
  - intro d. split.
    + intro H. apply (Permutation_in _ P) in H. apply in_flat_map in H as [s [Hs H]].
      unfold f in H. apply in_map_iff in H as [[l r] [<- H]]. apply filter_In in H as [H1 H2].
      apply Z.leb_le in H2. exists s, l, r. repeat split; auto.
    + intros (s & l & r & Hs & Hp & Hm & ->). apply (Permutation_in _ (Permutation_sym P)).
      apply in_flat_map. exists s. split; [assumption|]. unfold f. apply in_map_iff.
      exists (l, r). split; [reflexivity|]. apply filter_In. split; [assumption|].
      now apply Z.leb_le.
  - rewrite P. clear P S. induction stations as [|s ss IH]; simpl; [constructor|].
    apply Permutation_app; [|exact IH].
    rewrite app_nil_r. symmetry. apply HS.
Qed.

(** ** Reduction *)
Lemma reduce_latencies_lemma rows :
  StronglySorted Z.lt (map lr_point (reduce_latencies rows))
  /\ (forall p, In p (map lr_point (reduce_latencies rows)) <-> lat_rows_of p rows <> [])
  /\ (forall r, In r (reduce_latencies rows) ->
        let g := lat_rows_of (lr_point r) rows in
        lr_samples r = Z.of_nat (length g)
        /\ match lr_latency r with
           | None => forall a, In a g -> l_latency a = None
           | Some m => is_mean m (filter_some (map l_latency g))
           end).
Proof.
  assert (E : forall ks, (forall k, In k ks -> lat_rows_of k rows <> []) ->
     map lr_point (filter_some (map reduce_latency_group (map (fun k => lat_rows_of k rows) ks))) = ks
     /\ forall r, In r (filter_some (map reduce_latency_group (map (fun k => lat_rows_of k rows) ks))) ->
        exists k, In k ks /\ lr_point r = k /\ reduce_latency_group (lat_rows_of k rows) = Some r).
  { induction ks as [|k ks IH]; intro H; simpl; [split; [reflexivity|intros r []]|].
    destruct IH as [IH1 IH2]; [intros; apply H; now right|].
    pose proof (H k (or_introl eq_refl)) as Hk.
    destruct (lat_rows_of k rows) as [|x g] eqn:Eg; [congruence|].
    assert (Hx : l_point x = k).
    { assert (In x (lat_rows_of k rows)) as Hin by (rewrite Eg; now left).
      unfold lat_rows_of in Hin. apply filter_In in Hin as [_ Hin]. now apply Z.eqb_eq. }
    cbn [reduce_latency_group filter_some]. split.
    - simpl map at 1. f_equal; assumption.
    - intros r [<-|Hr].
      + exists k. split; [now left|]. split; [exact Hx|]. rewrite Eg. reflexivity.
      + destruct (IH2 _ Hr) as [k' [Hk' R]]. exists k'. split; [now right|exact R]. }
  assert (HK : forall k, In k (group_keys l_point rows) -> lat_rows_of k rows <> [])
    by (intros; now apply group_rows_nonempty).
  destruct (E (group_keys l_point rows) HK) as [E1 E2].
  change (filter_some (map reduce_latency_group (map (fun k => lat_rows_of k rows) (group_keys l_point rows))))
    with (reduce_latencies rows) in E1, E2.
  rewrite E1. split; [apply group_keys_sorted|]. split.
  - intro p. split; [apply HK|]. intro NE. apply group_keys_in.
    destruct (lat_rows_of p rows) as [|x g] eqn:Eg; [congruence|]. exists x.
    assert (In x (lat_rows_of p rows)) as Hin by (rewrite Eg; now left).
    unfold lat_rows_of in Hin. apply filter_In in Hin as [Hx Hp]. split; [assumption|now apply Z.eqb_eq].
  - intros r Hr. destruct (E2 _ Hr) as [k [_ [<- R]]].
    destruct (lat_rows_of (lr_point r) rows) as [|x g] eqn:Eg; [discriminate|].
    cbn [reduce_latency_group] in R. cbv zeta.
    assert (R' : r = mk_lred (l_point x)
                (mean_opt (map l_latency (x :: g))) (sum_Z (map (fun _ => 1) (x :: g))))
      by congruence.
    rewrite R'. cbn [lr_samples lr_latency].
    split; [apply sum_ones|].
    unfold mean_opt. destruct (filter_some (map l_latency (x :: g))) as [|v vs] eqn:Ev.
    + intros a Ha. destruct (l_latency a) as [v|] eqn:Ea; [|reflexivity].
      exfalso. assert (In v (filter_some (map l_latency (x :: g)))) as Hv.
      { apply filter_some_in. rewrite <- Ea. now apply in_map. }
      rewrite Ev in Hv. destruct Hv.
    + apply mean_Z_is_mean. discriminate.
Qed.

Lemma reduce_samples_matched_lemma rows r :
  (forall a, In a rows -> l_latency a <> None) ->
  In r (reduce_latencies rows) ->
  lr_samples r
  = Z.of_nat (length (filter_some (map l_latency (lat_rows_of (lr_point r) rows)))).
Proof.
  intros H Hr. destruct (reduce_latencies_lemma rows) as [_ [_ HR]].
  destruct (HR r Hr) as [-> _]. f_equal.
  assert (H' : forall a, In a (lat_rows_of (lr_point r) rows) -> l_latency a <> None).
  { intros a Ha. apply H. unfold lat_rows_of in Ha. apply filter_In in Ha. tauto. }
  revert H'. generalize (lat_rows_of (lr_point r) rows).
  induction l as [|a l IH]; intro H'; [reflexivity|]. simpl.
  destruct (l_latency a) as [v|] eqn:E.
  - simpl. f_equal. apply IH. intros; apply H'; now right.
  - exfalso. apply (H' a); [now left|assumption].
Qed.

(** ** Gridding *)
Lemma grid_latencies_lemma {G} (contains : G -> lred -> bool) rows (cells : list (cell G)) out :
  rows <> [] -> NoDup (map c_id cells) ->
  grid_latencies contains rows cells = Ok out ->
  (forall k, In k (map lg_cell out) <->
     exists c, In c cells /\ c_id c = k /\ in_cell contains c rows <> [])
  /\ NoDup (map lg_cell out)
  /\ (forall r, In r out -> exists c, In c cells /\ c_id c = lg_cell r /\
       let rs := in_cell contains c rows in
       rs <> [] /\ lg_samples r = sum_Z (map lr_samples rs)
       /\ match lg_latency r with
          | Some m => (forall x, In x rs -> lr_latency x <> None)
             /\ (m * inject_Z (Z.of_nat (length rs)) == sum_Q (filter_some (map lr_latency rs)))%Q
          | None => exists x, In x rs /\ lr_latency x = None
          end).
Proof.
  intros NE ND H. unfold grid_latencies in H.
  destruct rows as [|r0 rows0] eqn:Erows; [congruence|]. rewrite <- Erows in *. clear Erows NE.
  cbv zeta in H. apply mapM_ok in H. unfold group_by in H.
  set (key := fun p : cell G * lred => c_id (fst p)) in *.
  set (J := sjoin contains cells rows) in *.
  set (ks := group_keys key J) in *.
  assert (HK : forall k, In k ks <->
     exists c, In c cells /\ c_id c = k /\ in_cell contains c rows <> [])
    by (intro; apply sjoin_keys).
  assert (Hrow : forall k row, In k ks ->
     bind (grid_group lr_samples rows lr_latency (group_rows key k J))
       (fun a => Ok (mk_lgrid (match group_rows key k J with [] => 0 | p :: _ => c_id (fst p) end)
             (sum_Z (map (fun p => lr_samples (snd p)) (group_rows key k J))) a)) = Ok row ->
     lg_cell row = k /\ exists c, In c cells /\ c_id c = k /\
       let rs := in_cell contains c rows in
       rs <> [] /\ lg_samples row = sum_Z (map lr_samples rs)
       /\ match lg_latency row with
          | Some m => (forall x, In x rs -> lr_latency x <> None)
             /\ (m * inject_Z (Z.of_nat (length rs)) == sum_Q (filter_some (map lr_latency rs)))%Q
          | None => exists x, In x rs /\ lr_latency x = None
          end).
  { intros k row Hk E. apply HK in Hk as [c [Hc [<- NE]]].
    unfold J, key in E. rewrite sjoin_group in E by assumption.
    set (rs := in_cell contains c rows) in *.
    pose proof (grid_group_cell lr_samples rows lr_latency c rs NE) as H1.
    destruct (loc lr_samples rows (c_label c)) as [w|e].
    2:{ rewrite H1 in E. discriminate. }
    destruct (w =? 0); [rewrite H1 in E; discriminate|].
    destruct (forallb _ (map lr_latency rs)) eqn:EF.
    - destruct H1 as [m [Em Hm]]. rewrite Em in E. simpl in E. injection E as <-. simpl. split.
      + destruct rs; [congruence|reflexivity].
      + exists c. split; [assumption|]. split; [reflexivity|]. split; [assumption|].
        split; [rewrite map_map; reflexivity|]. split; [|exact Hm].
        intros x Hx. rewrite forallb_forall in EF. specialize (EF _ (in_map lr_latency _ _ Hx)).
          destruct (lr_latency x); discriminate.
    - rewrite H1 in E. simpl in E. injection E as <-. simpl. split.
      + destruct rs; [congruence|reflexivity].
      + exists c. split; [assumption|]. split; [reflexivity|]. split; [assumption|].
        split; [rewrite map_map; reflexivity|].
        fold rs. clear -EF. clearbody rs. induction rs as [|x rs IH]; [discriminate|]. simpl in EF.
          destruct (lr_latency x) as [v|] eqn:Ex.
          -- destruct (IH EF) as [y [Hy Ey]]. exists y. split; [apply in_cons, Hy|assumption].
          -- exists x. split; [apply in_eq|assumption]. }
  assert (NDks : NoDup ks) by apply sorted_lt_nodup, group_keys_sorted.
  clearbody ks.
  assert (Ekeys : map lg_cell out = ks).
  { clear HK ND NDks. revert out H. induction ks as [|k ks IH]; intros out H; simpl in H; inversion H; subst.
    - reflexivity.
    - simpl. f_equal.
      + apply Hrow in H2; [apply H2|now left].
      + apply IH; [|assumption]. intros k' row' Hk'. apply Hrow. now right. }
  split; [rewrite Ekeys; exact HK|]. split; [rewrite Ekeys; exact NDks|].
  intros r Hr. destruct (Forall2_in_r _ _ _ _ H Hr) as [g [Hg Eg]].
  apply in_map_iff in Hg as [k [<- Hk]]. apply Hrow in Eg as [E1 [c [Hc [Ec R]]]]; [|assumption].
  exists c. split; [assumption|]. split; [congruence|]. exact R.
Qed.

Lemma lat_const_weight (rs : list lred) vs s :
  (forall r, In r rs -> lr_samples r = s) -> map lr_latency rs = map Some vs ->
  (sum_Q (map (fun p => inject_Z (lr_samples (fst p)) * snd p) (combine rs vs))
   == inject_Z s * sum_Q vs)%Q
  /\ sum_Z (map lr_samples rs) = s * Z.of_nat (length rs).
Proof.
  revert vs. induction rs as [|r rs IH]; intros [|v vs] H E; try discriminate.
  - split; [simpl; ring|simpl; lia].
  - simpl in E. injection E as Ev E.
    destruct (IH vs) as [I1 I2]; [intros; apply H; now right|assumption|].
    unfold sum_Z, sum_Q in *. split; cbn [map fold_right length combine fst snd].
    + rewrite I1, (H r (or_introl eq_refl)). ring.
    + rewrite I2, (H r (or_introl eq_refl)). lia.
Qed.

Lemma all_some (rs : list lred) :
  (forall x, In x rs -> lr_latency x <> None) -> exists vs, map lr_latency rs = map Some vs.
Proof.
  induction rs as [|r rs IH]; intro H; [exists []; reflexivity|].
  destruct IH as [vs Hvs]; [intros; apply H; now right|].
  destruct (lr_latency r) as [v|] eqn:E.
  - exists (v :: vs). simpl. now rewrite E, Hvs.
  - exfalso. apply (H r); [now left|assumption].
Qed.

Lemma grid_lat_equal_lemma {G} (contains : G -> lred -> bool) rows (cells : list (cell G)) out s :
  rows <> [] -> NoDup (map c_id cells) ->
  (forall r, In r rows -> lr_samples r = s) ->
  grid_latencies contains rows cells = Ok out ->
  forall r, In r out -> exists c, In c cells /\ c_id c = lg_cell r /\
    match lg_latency r with
    | Some m => weighted_latency (in_cell contains c rows) m
    | None => exists x, In x (in_cell contains c rows) /\ lr_latency x = None
    end.
Proof.
  intros NE ND HS H r Hr. destruct (grid_latencies_lemma contains rows cells out NE ND H) as [_ [_ HR]].
  destruct (HR r Hr) as [c [Hc [Ec [_ [_ Hm]]]]]. exists c. split; [assumption|]. split; [assumption|].
  destruct (lg_latency r) as [m|]; [|assumption]. destruct Hm as [Hall Hm].
  destruct (all_some _ Hall) as [vs Hvs]. exists vs. split; [assumption|].
  destruct (lat_const_weight (in_cell contains c rows) vs s) as [E1 E2]; [|assumption|].
  { intros x Hx. apply HS. unfold in_cell in Hx. apply filter_In in Hx. tauto. }
  rewrite Hvs, filter_some_map_Some in Hm.
  rewrite E1, E2, inject_Z_mult, <- Hm. ring.
Qed.

Lemma downlink_epoch_lemma srt sat periods stations d :
  is_sort d_start srt -> (forall s l r, In s stations -> In (l, r) (periods s) -> l <= r) ->
  In d (collect_downlinks srt sat periods stations) ->
  d_sat d = sat /\ d_start d <= d_epoch d <= d_end d.
Proof.
  intros HS HP Hd. apply (collect_downlinks_lemma srt sat periods stations HS) in Hd
    as (s & l & r & Hs & Hp & _ & ->). simpl. split; [reflexivity|].
  apply (mid_bounds l r). eapply HP; eauto.
Qed.

Lemma rows_count_lemma srt_o srt_d srt_l rows downs :
  is_sort o_end srt_o -> is_sort d_start srt_d -> is_sort l_observed srt_l ->
  rows <> [] -> downs <> [] ->
  Permutation (map (fun o => (o_point o, o_sat o, o_inst o, o_epoch o)) rows)
    (map (fun r => (l_point r, l_sat r, l_inst r, l_observed r))
       (compute_latencies srt_o srt_d srt_l rows downs)).
Proof.
  intros HO HD HL NR ND.
  destruct (compute_latencies_lemma srt_o srt_d srt_l rows downs HO HD HL NR ND) as [rows' [P [F _]]].
  etransitivity; [apply Permutation_map; exact P|]. clear - F.
  induction F as [|o r os rs H F IH]; simpl; [constructor|].
  destruct H as (-> & -> & -> & -> & _). constructor. exact IH.
Qed.

Lemma lgrid_outcome_lemma {G} (contains : G -> lred -> bool) rows (cells : list (cell G)) :
  NoDup (map c_id cells) -> (forall r, In r rows -> 0 < lr_samples r) ->
  let labelled := forall c, In c cells -> in_cell contains c rows <> [] ->
     0 <= c_label c < Z.of_nat (length rows) in
  (labelled /\ exists out, grid_latencies contains rows cells = Ok out)
  \/ (~ labelled /\ grid_latencies contains rows cells = Raise KeyError).
Proof.
  intros ND HP. cbv zeta. unfold grid_latencies.
  destruct rows as [|r0 rows0] eqn:Erows.
  { left. split; [|eauto]. intros c Hc NE. now elim NE. }
  rewrite <- Erows in *. clear Erows. cbv zeta.
  set (row := fun g : list (cell G * lred) => _).
  assert (HR : forall c, In c cells -> in_cell contains c rows <> [] ->
    (0 <= c_label c < Z.of_nat (length rows) /\ exists v, row (map (pair c) (in_cell contains c rows)) = Ok v)
    \/ (~ 0 <= c_label c < Z.of_nat (length rows)
        /\ row (map (pair c) (in_cell contains c rows)) = Raise KeyError)).
  { intros c Hc NE. unfold row.
    destruct (grid_group_outcome lr_samples rows lr_latency c _ NE HP) as [[L [v E]]|[L E]];
    rewrite E; [|now right]. simpl. eauto. }
  unfold group_by.
  assert (HG : forall g, In g (map (fun k => group_rows (fun p => c_id (fst p)) k (sjoin contains cells rows))
       (group_keys (fun p => c_id (fst p)) (sjoin contains cells rows))) <->
     exists c, In c cells /\ in_cell contains c rows <> [] /\ g = map (pair c) (in_cell contains c rows)).
  { intro g. rewrite in_map_iff. split.
    - intros (k & <- & Hk). apply sjoin_keys in Hk as [c [Hc [<- NE]]].
      exists c. rewrite sjoin_group by assumption. auto.
    - intros (c & Hc & NE & ->). exists (c_id c). rewrite sjoin_group by assumption. split; [reflexivity|].
      apply sjoin_keys. exists c. auto. }
  match goal with |- context[mapM row ?l] => destruct (mapM_one_error row l KeyError) as [[E A]|[E A]] end.
  - intros g Hg. apply HG in Hg as (c & Hc & NE & ->). destruct (HR c Hc NE) as [[_ ?]|[_ ?]]; auto.
  - left. split; [|assumption]. intros c Hc NE. destruct (HR c Hc NE) as [[L _]|[_ F]]; [assumption|].
    destruct (A (map (pair c) (in_cell contains c rows))) as [y Ey]; [|congruence].
    apply HG. eauto.
  - right. split; [|assumption]. intro L. destruct A as (g & Hg & Eg). apply HG in Hg as (c & Hc & NE & ->).
    destruct (HR c Hc NE) as [[_ [v F]]|[F _]]; [congruence|]. apply F. now apply L.
Qed.

Lemma lgrid_empty_lemma {G} (contains : G -> lred -> bool) (cells : list (cell G)) :
  exists out, grid_latencies contains [] cells = Ok out
    /\ Forall2 (fun c r => lg_cell r = c_id c /\ lg_samples r = 0 /\ lg_latency r = None) cells out.
Proof.
  eexists. split; [reflexivity|]. induction cells as [|c cells IH]; constructor; [auto | exact IH].
Qed.
