(** Proofs about reduction and gridding. *)
From Coq Require Import String ZArith QArith List Bool Sorting.Sorted Sorting.Permutation Lia Lqa.
From Verif Require Import Base BaseFacts Coverage_Model Coverage_Spec Coverage_Proofs2.
Import ListNotations.
Open Scope Z_scope.

(** ** Means *)

Lemma sum_bounds l lo hi :
  Forall (fun x => lo <= x <= hi) l ->
  lo * Z.of_nat (length l) <= fold_right Z.add 0 l <= hi * Z.of_nat (length l).
Proof.
  induction 1 as [|x r Hx H IH]; simpl fold_right; [simpl; lia|].
  change (length (x :: r)) with (S (length r)). rewrite Nat2Z.inj_succ. lia.
Qed.

Lemma is_mean_bounds m l lo hi :
  is_mean m l -> Forall (fun x => lo <= x <= hi) l ->
  (inject_Z lo <= m)%Q /\ (m <= inject_Z hi)%Q.
Proof.
  intros [NE Hm] HF. apply sum_bounds in HF.
  assert (P : 0 < Z.of_nat (length l)) by (destruct l; [congruence|simpl length; lia]).
  apply inject_Z_pos in P. destruct HF as [H1 H2].
  rewrite Zle_Qle, inject_Z_mult in H1, H2. rewrite <- Hm in H1, H2.
  split; apply (Qmult_le_r _ _ _ P); assumption.
Qed.

Lemma is_mean_unique m m' l : is_mean m l -> is_mean m' l -> (m == m')%Q.
Proof.
  intros [NE H] [_ H'].
  assert (P : 0 < Z.of_nat (length l)) by (destruct l; [congruence|simpl length; lia]).
  apply inject_Z_pos in P. rewrite <- H' in H.
  apply (Qmult_inj_r _ _ (inject_Z (Z.of_nat (length l)))); [lra|assumption].
Qed.

Lemma sum_ones {A} (l : list A) : sum_Z (map (fun _ => 1) l) = Z.of_nat (length l).
Proof.
  induction l as [|x r IH]; [reflexivity|]. unfold sum_Z in *. cbn [map fold_right length].
  rewrite IH. lia.
Qed.

Lemma filter_some_in {A} (l : list (option A)) x : In x (filter_some l) <-> In (Some x) l.
Proof.
  induction l as [|[y|] r IH]; simpl; [tauto| |].
  - rewrite IH. split; intros [H|H]; auto; [left; congruence|injection H; auto].
  - rewrite IH. split; intro H; [now right|]. destruct H; [discriminate|assumption].
Qed.

(** ** Reduction *)

Lemma reduce_spec_lemma rows :
  StronglySorted Z.lt (map r_point (reduce_observations rows))
  /\ (forall p, In p (map r_point (reduce_observations rows)) <-> rows_of p rows <> [])
  /\ (forall r, In r (reduce_observations rows) ->
        let g := rows_of (r_point r) rows in
        r_samples r = Z.of_nat (length g)
        /\ is_mean (r_access r) (map a_access g)
        /\ match r_revisit r with
           | None => forall a, In a g -> a_revisit a = None
           | Some m => is_mean m (filter_some (map a_revisit g))
           end).
Proof.
  assert (E : forall ks, (forall k, In k ks -> rows_of k rows <> []) ->
     map r_point (filter_some (map reduce_group (map (fun k => rows_of k rows) ks))) = ks
     /\ forall r, In r (filter_some (map reduce_group (map (fun k => rows_of k rows) ks))) ->
        exists k, In k ks /\ r_point r = k /\ reduce_group (rows_of k rows) = Some r).
  { induction ks as [|k ks IH]; intro H; simpl; [split; [reflexivity|intros r []]|].
    destruct IH as [IH1 IH2]; [intros; apply H; now right|].
    pose proof (H k (or_introl eq_refl)) as Hk.
    destruct (rows_of k rows) as [|x g] eqn:Eg; [congruence|].
    assert (Hx : a_point x = k).
    { assert (In x (rows_of k rows)) as Hin by (rewrite Eg; now left).
      unfold rows_of in Hin. apply filter_In in Hin as [_ Hin]. now apply Z.eqb_eq. }
    cbn [reduce_group filter_some]. split.
    - simpl map at 1. f_equal; assumption.
    - intros r [<-|Hr].
      + exists k. split; [now left|]. split; [exact Hx|]. rewrite Eg. reflexivity.
      + destruct (IH2 _ Hr) as [k' [Hk' R]]. exists k'. split; [now right|exact R]. }
  assert (HK : forall k, In k (group_keys a_point rows) -> rows_of k rows <> [])
    by (intros; now apply group_rows_nonempty).
  destruct (E (group_keys a_point rows) HK) as [E1 E2].
  change (filter_some (map reduce_group (map (fun k => rows_of k rows) (group_keys a_point rows))))
    with (reduce_observations rows) in E1, E2.
  rewrite E1. split; [apply group_keys_sorted|]. split.
  - intro p. split; [apply HK|]. intro NE. apply group_keys_in.
    destruct (rows_of p rows) as [|x g] eqn:Eg; [congruence|]. exists x.
    assert (In x (rows_of p rows)) as Hin by (rewrite Eg; now left).
    unfold rows_of in Hin. apply filter_In in Hin as [Hx Hp]. split; [assumption|now apply Z.eqb_eq].
  - intros r Hr. destruct (E2 _ Hr) as [k [_ [<- R]]].
    destruct (rows_of (r_point r) rows) as [|x g] eqn:Eg; [discriminate|].
    cbn [reduce_group] in R. cbv zeta.
    assert (R' : r = mk_red (a_point x) (mean_Z (map a_access (x :: g)))
                (mean_opt (map a_revisit (x :: g))) (sum_Z (map (fun _ => 1) (x :: g))))
      by congruence.
    rewrite R'. cbn [r_samples r_access r_revisit].
    split; [apply sum_ones|]. split; [apply mean_Z_is_mean; discriminate|].
    unfold mean_opt. destruct (filter_some (map a_revisit (x :: g))) as [|v vs] eqn:Ev.
    + intros a Ha. destruct (a_revisit a) as [v|] eqn:Ea; [|reflexivity].
      exfalso. assert (In v (filter_some (map a_revisit (x :: g)))) as Hv.
      { apply filter_some_in. rewrite <- Ea. now apply in_map. }
      rewrite Ev in Hv. destruct Hv.
    + apply mean_Z_is_mean. discriminate.
Qed.

Lemma reduce_revisit_missing_lemma srt rows r :
  is_sort o_start srt -> proper rows ->
  In r (reduce_observations (aggregate_observations srt rows)) ->
  (r_revisit r = None <-> r_samples r = 1)
  /\ (forall m, r_revisit r = Some m -> (0 < m)%Q).
Proof.
  intros HS HP Hr.
  destruct (reduce_spec_lemma (aggregate_observations srt rows)) as [_ [_ H]].
  specialize (H r Hr). cbv zeta in H.
  set (g := rows_of (r_point r) (aggregate_observations srt rows)) in *.
  destruct H as [Hn [Ha Hv]].
  assert (HR : revisits None g) by (apply aggregate_revisits_lemma; assumption).
  split.
  - destruct Ha as [NE _]. rewrite Hn.
    destruct g as [|x [|y g']]; [now destruct NE| |].
    + split; [reflexivity|]. intros _. simpl in HR.
      destruct (r_revisit r) as [m|]; [|reflexivity]. destruct Hv as [Hv _].
      exfalso. apply Hv. simpl. destruct (a_revisit x); [tauto|reflexivity].
    + split; [|simpl length; lia]. intro E. rewrite E in Hv. exfalso.
      simpl in HR. destruct HR as [_ [HR _]].
      rewrite (Hv y) in HR by (right; now left). exact HR.
  - intros m E. rewrite E in Hv.
    assert (HF : Forall (fun x => 1 <= x) (filter_some (map a_revisit g))).
    { apply Forall_forall. intros x Hx. apply filter_some_in in Hx.
      apply in_map_iff in Hx as [a [Ea Hin]].
      clear -HR Ea Hin. revert HR. generalize (@None Z).
      induction g as [|b g IH]; intros prev HR; [destruct Hin|].
      simpl in HR. destruct HR as [H1 H2]. destruct Hin as [->|Hin].
      - rewrite Ea in H1. destruct prev; [lia|tauto].
      - eapply IH; eauto. }
    destruct (filter_some (map a_revisit g)) as [|v vs] eqn:El; [now destruct Hv|].
    assert (HB : exists hi, Forall (fun x => 1 <= x <= hi) (v :: vs)).
    { exists (max_of v (v :: vs)). destruct (max_of_spec v (v :: vs)) as [_ Hmax].
      inversion Hmax as [|? ? _ Hmax']; subst.
      rewrite Forall_forall in HF, Hmax' |- *. intros x Hx. split; auto. }
    destruct HB as [hi HB]. destruct (is_mean_bounds m _ 1 hi Hv HB) as [H1 _].
    change (inject_Z 1) with 1%Q in H1. lra.
Qed.

(** ** Gridding *)
Section Grid.
Context {G R : Type} (contains : G -> R -> bool).


Lemma sjoin_group (cells : list (cell G)) rows c :
  NoDup (map c_id cells) -> In c cells ->
  group_rows (fun p : cell G * R => c_id (fst p)) (c_id c) (sjoin contains cells rows)
  = map (pair c) (in_cell contains c rows).
Proof.
  induction cells as [|d cells IH]; intros ND Hin; [destruct Hin|].
  simpl in ND. inversion ND; subst. unfold group_rows, sjoin. simpl flat_map.
  rewrite filter_app.
  destruct Hin as [->|Hin].
  - rewrite (filter_all _ (map _ _)).
    2:{ intros p Hp. apply in_map_iff in Hp as [r [<- _]]. apply Z.eqb_refl. }
    rewrite (filter_none _ (flat_map _ _)); [apply app_nil_r|].
    intros p Hp. apply in_flat_map in Hp as [e [He Hp]].
    apply in_map_iff in Hp as [r [<- _]]. simpl. apply Z.eqb_neq. intro E.
    apply H1. rewrite <- E. now apply in_map.
  - rewrite (filter_none _ (map _ _)).
    2:{ intros p Hp. apply in_map_iff in Hp as [r [<- _]]. simpl. apply Z.eqb_neq. intro E.
        apply H1. rewrite E. now apply in_map. }
    simpl. apply IH; assumption.
Qed.

Lemma sjoin_keys cells rows k :
  In k (group_keys (fun p : cell G * R => c_id (fst p)) (sjoin contains cells rows))
  <-> exists c, In c cells /\ c_id c = k /\ in_cell contains c rows <> [].
Proof.
  rewrite group_keys_in. unfold sjoin. split.
  - intros [p [Hp <-]]. apply in_flat_map in Hp as [c [Hc Hp]].
    apply in_map_iff in Hp as [r [<- Hr]]. exists c. repeat split; auto.
    intro E. unfold in_cell in E. rewrite E in Hr. destruct Hr.
  - intros [c [Hc [<- NE]]]. destruct (in_cell contains c rows) as [|r rs] eqn:E; [congruence|].
    exists (c, r). split; [|reflexivity]. apply in_flat_map. exists c. split; [assumption|].
    apply in_map. change (filter (contains (c_geom c)) rows) with (in_cell contains c rows).
    rewrite E. now left.
Qed.

Lemma mapM_const {A B} (f : A -> pyres B) l w :
  (forall x, In x l -> f x = Ok w) -> mapM f l = Ok (repeat w (length l)).
Proof.
  induction l as [|x r IH]; intro H; [reflexivity|]. simpl.
  rewrite (H x) by now left. simpl. rewrite IH by (intros; apply H; now right). reflexivity.
Qed.

Lemma sum_repeat w n : sum_Z (repeat w n) = w * Z.of_nat n.
Proof.
  induction n as [|n IH]; [simpl; lia|]. unfold sum_Z in *. cbn [repeat fold_right].
  rewrite IH. lia.
Qed.

Lemma sum_Q_weighted vs w :
  (sum_Q (zip_with (fun v w => v * inject_Z w)%Q vs (repeat w (length vs)))
   == inject_Z w * sum_Q vs)%Q.
Proof.
  unfold zip_with. induction vs as [|v vs IH]; simpl; [ring|].
  rewrite IH. ring.
Qed.

Lemma filter_some_map_Some {A} (l : list A) : filter_some (map Some l) = l.
Proof. induction l; simpl; [reflexivity|f_equal; assumption]. Qed.

(** What the lookup by cell label amounts to: one constant weight per cell. *)
Lemma grid_group_cell (samples : R -> Z) (rows : list R) (vals : R -> option Q) (c : cell G) rs :
  rs <> [] ->
  match loc samples rows (c_label c) with
  | Raise e => grid_group samples rows vals (map (pair c) rs) = Raise e
  | Ok w =>
      if w =? 0 then grid_group samples rows vals (map (pair c) rs) = Raise ZeroDivisionError
      else if forallb (fun v => match v with None => false | Some _ => true end) (map vals rs)
      then exists m, grid_group samples rows vals (map (pair c) rs) = Ok (Some m)
           /\ (m * inject_Z (Z.of_nat (length rs)) == sum_Q (filter_some (map vals rs)))%Q
      else grid_group samples rows vals (map (pair c) rs) = Ok None
  end.
Proof.
  intro NE. unfold grid_group.
  destruct (loc samples rows (c_label c)) as [w|e] eqn:El.
  - rewrite (mapM_const _ _ w).
    2:{ intros p Hp. apply in_map_iff in Hp as [r [<- _]]. exact El. }
    rewrite map_length. simpl bind. rewrite map_map. simpl snd.
    change (map (fun x : R => vals x) rs) with (map vals rs).
    unfold np_average. rewrite sum_repeat.
    assert (P : 0 < Z.of_nat (length rs)) by (destruct rs; [congruence|simpl length; lia]).
    destruct (Z.eqb_spec w 0) as [->|Hw]; [reflexivity|].
    destruct (Z.eqb_spec (w * Z.of_nat (length rs)) 0) as [E|_]; [nia|].
    destruct (forallb _ (map vals rs)) eqn:EF; [|reflexivity].
    assert (Hall : exists vs, map vals rs = map Some vs).
    { clear -EF. induction rs as [|r rs IH]; [exists []; reflexivity|].
      simpl in EF. apply andb_true_iff in EF as [E1 E2]. destruct (vals r) as [v|] eqn:Ev; [|discriminate].
      destruct (IH E2) as [vs Hvs]. exists (v :: vs). simpl. rewrite Ev, Hvs. reflexivity. }
    destruct Hall as [vs Hvs]. rewrite Hvs, filter_some_map_Some.
    assert (EL : length rs = length vs).
    { rewrite <- (map_length vals rs), Hvs, map_length. reflexivity. }
    eexists. split; [reflexivity|]. rewrite EL, sum_Q_weighted.
    apply inject_Z_pos in P. rewrite EL in P.
    assert (Hwq : ~ (inject_Z w == 0)%Q).
    { change 0%Q with (inject_Z 0). rewrite inject_Z_injective. assumption. }
    rewrite inject_Z_mult. field. split; [lra|assumption].
  - destruct rs as [|r rs]; [congruence|]. simpl. rewrite El. reflexivity.
Qed.

End Grid.

Lemma Forall2_in_r {A B} (P : A -> B -> Prop) l m y :
  Forall2 P l m -> In y m -> exists x, In x l /\ P x y.
Proof.
  induction 1; intro Hin; [destruct Hin|]. destruct Hin as [<-|Hin].
  - eauto using in_eq.
  - destruct (IHForall2 Hin) as [z [Hz Pz]]. exists z. split; [now right|assumption].
Qed.
Lemma Forall2_in_l {A B} (P : A -> B -> Prop) l m x :
  Forall2 P l m -> In x l -> exists y, In y m /\ P x y.
Proof.
  induction 1; intro Hin; [destruct Hin|]. destruct Hin as [<-|Hin].
  - eauto using in_eq.
  - destruct (IHForall2 Hin) as [z [Hz Pz]]. exists z. split; [now right|assumption].
Qed.

Lemma sum_Q_map_some {R} (f : R -> Q) rs :
  filter_some (map (fun r => Some (f r)) rs) = map f rs.
Proof. induction rs; simpl; [reflexivity|f_equal; assumption]. Qed.

Lemma all_some_map {R} (f : R -> Q) rs :
  forallb (fun v : option Q => match v with None => false | Some _ => true end)
          (map (fun r => Some (f r)) rs) = true.
Proof. induction rs; simpl; auto. Qed.

(** Every output row of grid_observations: samples are summed, but access is
    the unweighted mean over the points of the cell. *)
Lemma grid_rows_lemma {G} (contains : G -> red -> bool) rows (cells : list (cell G)) out :
  rows <> [] -> NoDup (map c_id cells) ->
  grid_observations contains rows cells = Ok out ->
  (forall k, In k (map g_cell out) <->
     exists c, In c cells /\ c_id c = k /\ in_cell contains c rows <> [])
  /\ NoDup (map g_cell out)
  /\ (forall r, In r out -> exists c, In c cells /\ c_id c = g_cell r /\
       let rs := in_cell contains c rows in
       rs <> [] /\ g_samples r = sum_Z (map r_samples rs)
       /\ exists m, g_access r = Some m
          /\ (m * inject_Z (Z.of_nat (length rs)) == sum_Q (map r_access rs))%Q).
Proof.
  intros NE ND H. unfold grid_observations in H.
  destruct rows as [|r0 rows0] eqn:Erows; [congruence|]. rewrite <- Erows in *. clear Erows NE.
  cbv zeta in H. apply mapM_ok in H.
  unfold group_by in H.
  set (key := fun p : cell G * red => c_id (fst p)) in *.
  set (J := sjoin contains cells rows) in *.
  set (ks := group_keys key J) in *.
  assert (HK : forall k, In k ks <->
     exists c, In c cells /\ c_id c = k /\ in_cell contains c rows <> [])
    by (intro; apply sjoin_keys).
  assert (Hrow : forall k row, In k ks ->
     bind (grid_group r_samples rows (fun r => Some (r_access r)) (group_rows key k J))
       (fun a => bind (grid_group r_samples rows r_revisit (group_rows key k J))
          (fun v => Ok (mk_grid (match group_rows key k J with [] => 0 | p :: _ => c_id (fst p) end)
             (sum_Z (map (fun p => r_samples (snd p)) (group_rows key k J))) a v))) = Ok row ->
     g_cell row = k /\ exists c, In c cells /\ c_id c = k /\
       let rs := in_cell contains c rows in
       rs <> [] /\ g_samples row = sum_Z (map r_samples rs)
       /\ exists m, g_access row = Some m
          /\ (m * inject_Z (Z.of_nat (length rs)) == sum_Q (map r_access rs))%Q).
  { intros k row Hk E. apply HK in Hk as [c [Hc [<- NE]]].
    unfold J, key in E. rewrite sjoin_group in E by assumption.
    set (rs := in_cell contains c rows) in *.
    pose proof (grid_group_cell r_samples rows (fun r => Some (r_access r)) c rs NE) as H1.
    destruct (loc r_samples rows (c_label c)) as [w|e].
    2:{ rewrite H1 in E. discriminate. }
    destruct (w =? 0); [rewrite H1 in E; discriminate|].
    rewrite all_some_map in H1. destruct H1 as [m [Em Hm]].
    rewrite Em in E. simpl in E.
    destruct (grid_group r_samples rows r_revisit (map (pair c) rs)) as [v|e]; [|discriminate].
    simpl in E. injection E as <-. rewrite sum_Q_map_some in Hm.
    simpl. split.
    - destruct rs; [congruence|reflexivity].
    - exists c. repeat split; auto.
      + rewrite map_map. reflexivity.
      + exists m. split; [reflexivity|assumption]. }
  assert (NDks : NoDup ks) by apply sorted_lt_nodup, group_keys_sorted.
  clearbody ks.
  assert (Ekeys : map g_cell out = ks).
  { clear HK ND NDks. revert out H. induction ks as [|k ks IH]; intros out H; simpl in H; inversion H; subst.
    - reflexivity.
    - simpl. f_equal.
      + apply Hrow in H2; [apply H2|now left].
      + apply IH; [|assumption]. intros k' row' Hk'. apply Hrow. now right. }
  split; [rewrite Ekeys; exact HK|]. split; [rewrite Ekeys; exact NDks|].
  intros r Hr. destruct (Forall2_in_r _ _ _ _ H Hr) as [g [Hg Eg]].
  apply in_map_iff in Hg as [k [<- Hk]]. apply Hrow in Eg as [E1 [c [Hc [Ec R]]]]; [|assumption].
  exists c. repeat split; try assumption; try congruence; apply R.
Qed.

(** ** Conservation of samples *)
Lemma sum_Z_app a b : sum_Z (a ++ b) = sum_Z a + sum_Z b.
Proof.
  unfold sum_Z. induction a as [|x r IH]; cbn [app fold_right]; [reflexivity|]. rewrite IH. lia.
Qed.

Lemma sum_Z_perm a b : Permutation a b -> sum_Z a = sum_Z b.
Proof.
  unfold sum_Z. induction 1; cbn [fold_right]; lia.
Qed.

Lemma sum_Z_concat {A} (f : A -> Z) gs :
  sum_Z (map (fun g => sum_Z (map f g)) gs) = sum_Z (map f (concat gs)).
Proof.
  induction gs as [|g gs IH]; [reflexivity|].
  cbn [map concat]. rewrite map_app, sum_Z_app, <- IH. reflexivity.
Qed.

Lemma grid_total_joined {G} (contains : G -> red -> bool) rows (cells : list (cell G)) out :
  rows <> [] -> grid_observations contains rows cells = Ok out ->
  sum_Z (map g_samples out)
  = sum_Z (map (fun p => r_samples (snd p)) (sjoin contains cells rows)).
Proof.
  intros NE H. unfold grid_observations in H.
  destruct rows as [|r0 rows0] eqn:Erows; [congruence|]. rewrite <- Erows in *. clear Erows NE.
  cbv zeta in H. apply mapM_ok in H.
  set (J := sjoin contains cells rows) in *.
  pose proof (group_by_partition (fun p : cell G * red => c_id (fst p)) J) as P.
  rewrite <- (sum_Z_perm _ _ (Permutation_map (fun p : cell G * red => r_samples (snd p)) P)).
  rewrite <- sum_Z_concat. f_equal.
  clear P. induction H as [|g row gs out Hg H IH]; [reflexivity|].
  cbn [map]. f_equal; [|exact IH].
  destruct (grid_group r_samples rows (fun r => Some (r_access r)) g) as [a|e]; [|discriminate].
  simpl in Hg. destruct (grid_group r_samples rows r_revisit g) as [v|e]; [|discriminate].
  simpl in Hg. injection Hg as <-. reflexivity.
Qed.


Lemma sjoin_sum {G} (contains : G -> red -> bool) (cells : list (cell G)) rows :
  sum_Z (map (fun p => r_samples (snd p)) (sjoin contains cells rows))
  = sum_Z (map (fun r => r_samples r * Z.of_nat (times_covered contains cells r)) rows).
Proof.
  unfold sjoin, times_covered. induction cells as [|c cells IH].
  - simpl. induction rows as [|r rows IHr]; [reflexivity|].
    unfold sum_Z in *. cbn [map fold_right filter length]. rewrite <- IHr. simpl; lia.
  - cbn [flat_map]. rewrite map_app, sum_Z_app, IH, map_map. cbn [snd].
    clear IH.
    set (F := fun r => r_samples r * Z.of_nat (length (filter (fun c => contains (c_geom c) r) cells))).
    rewrite (map_ext (fun r => r_samples r * Z.of_nat (length (filter (fun c => contains (c_geom c) r) (c :: cells))))
               (fun r => (if contains (c_geom c) r then r_samples r else 0) + F r)).
    2:{ intro r. unfold F. cbn [filter]. destruct (contains (c_geom c) r); cbn [length]; lia. }
    clearbody F. induction rows as [|r rows IHr]; [reflexivity|].
    unfold sum_Z in *. cbn [map fold_right filter]. destruct (contains (c_geom c) r);
      cbn [map fold_right]; lia.
Qed.

Lemma grid_conserves_lemma {G} (contains : G -> red -> bool) rows (cells : list (cell G)) out :
  rows <> [] -> (forall r, In r rows -> times_covered contains cells r = 1%nat) ->
  grid_observations contains rows cells = Ok out ->
  sum_Z (map g_samples out) = sum_Z (map r_samples rows).
Proof.
  intros NE H1 H. rewrite (grid_total_joined contains rows cells out NE H), sjoin_sum.
  f_equal. apply map_ext_in. intros r Hr. rewrite (H1 r Hr). lia.
Qed.

(** ** Success, and the weighted mean for equal samples *)
Lemma mapM_all_ok {A B} (f : A -> pyres B) l :
  (forall x, In x l -> exists y, f x = Ok y) -> exists ys, mapM f l = Ok ys.
Proof.
  induction l as [|x r IH]; intro H; [exists []; reflexivity|].
  destruct (H x (or_introl eq_refl)) as [y Ey].
  destruct IH as [ys Eys]; [intros; apply H; now right|].
  exists (y :: ys). simpl. rewrite Ey. simpl. rewrite Eys. reflexivity.
Qed.

Lemma grid_ok_lemma {G} (contains : G -> red -> bool) rows (cells : list (cell G)) :
  NoDup (map c_id cells) ->
  (forall r, In r rows -> 0 < r_samples r) ->
  (forall c, In c cells -> in_cell contains c rows <> [] ->
     0 <= c_label c < Z.of_nat (length rows)) ->
  exists out, grid_observations contains rows cells = Ok out.
Proof.
  intros ND HP HL. unfold grid_observations.
  destruct rows as [|r0 rows0] eqn:Erows; [eexists; reflexivity|]. rewrite <- Erows in *. clear Erows.
  cbv zeta. apply mapM_all_ok. intros g Hg. unfold group_by in Hg.
  apply in_map_iff in Hg as [k [<- Hk]].
  apply sjoin_keys in Hk as [c [Hc [<- NE]]]. rewrite sjoin_group by assumption.
  set (rs := in_cell contains c rows) in *.
  assert (HW : exists w, loc r_samples rows (c_label c) = Ok w /\ 0 < w).
  { specialize (HL c Hc NE). unfold loc. destruct (Z.ltb_spec (c_label c) 0); [lia|].
    destruct (nth_error rows (Z.to_nat (c_label c))) as [r|] eqn:En.
    - exists (r_samples r). split; [reflexivity|]. apply HP. eapply nth_error_In; eauto.
    - apply nth_error_None in En. lia. }
  destruct HW as [w [Ew Hw]].
  assert (HG : forall vals, exists v, grid_group r_samples rows vals (map (pair c) rs) = Ok v).
  { intro vals. pose proof (grid_group_cell r_samples rows vals c rs NE) as H.
    rewrite Ew in H. destruct (Z.eqb_spec w 0); [lia|].
    destruct (forallb _ (map vals rs)); [destruct H as [m [H _]]|]; eauto. }
  destruct (HG (fun r => Some (r_access r))) as [a Ea]. destruct (HG r_revisit) as [v Ev].
  rewrite Ea. simpl. rewrite Ev. simpl. eauto.
Qed.

Lemma sum_Q_const_weight rs s :
  (forall r, In r rs -> r_samples r = s) ->
  (sum_Q (map (fun r => inject_Z (r_samples r) * r_access r) rs)
   == inject_Z s * sum_Q (map r_access rs))%Q
  /\ sum_Z (map r_samples rs) = s * Z.of_nat (length rs).
Proof.
  induction rs as [|r rs IH]; intro H.
  - split; [simpl; ring|simpl; lia].
  - destruct IH as [I1 I2]; [intros; apply H; now right|].
    unfold sum_Z in *.
    split; cbn [map sum_Q fold_right length].
    + unfold sum_Q in *. cbn [map fold_right]. rewrite I1, (H r (or_introl eq_refl)). ring.
    + rewrite I2, (H r (or_introl eq_refl)). lia.
Qed.

Lemma grid_equal_samples_lemma {G} (contains : G -> red -> bool) rows (cells : list (cell G)) out s :
  rows <> [] -> NoDup (map c_id cells) ->
  (forall r, In r rows -> r_samples r = s) ->
  grid_observations contains rows cells = Ok out ->
  forall r, In r out -> exists c m, In c cells /\ c_id c = g_cell r /\ g_access r = Some m /\
    (m * inject_Z (sum_Z (map r_samples (in_cell contains c rows)))
     == sum_Q (map (fun x => inject_Z (r_samples x) * r_access x) (in_cell contains c rows)))%Q.
Proof.
  intros NE ND HS H r Hr. destruct (grid_rows_lemma contains rows cells out NE ND H) as [_ [_ HR]].
  destruct (HR r Hr) as [c [Hc [Ec [_ [_ [m [Em Hm]]]]]]]. exists c, m. repeat split; auto.
  destruct (sum_Q_const_weight (in_cell contains c rows) s) as [E1 E2].
  { intros x Hx. apply HS. unfold in_cell in Hx. apply filter_In in Hx. tauto. }
  rewrite E1, E2, inject_Z_mult, <- Hm. ring.
Qed.

Lemma aggregate_telescope_lemma srt rows p a l :
  is_sort o_start srt -> proper rows ->
  rows_of p (aggregate_observations srt rows) = a :: l ->
  sum_Z (map a_access (a :: l)) + sum_Z (map revisit_or_zero (a :: l))
  = a_end (last (a :: l) a) - a_start a.
Proof.
  intros HS HP E.
  pose proof (aggregate_revisits_lemma srt rows p HS HP) as HR.
  change (filter (fun a => a_point a =? p) (aggregate_observations srt rows))
    with (rows_of p (aggregate_observations srt rows)) in HR.
  rewrite E in HR. refine (revisits_telescope (a :: l) None _ HR).
  intros b Hb. rewrite <- E in Hb. unfold rows_of in Hb. apply filter_In in Hb as [Hb _].
  now apply (aggregate_access_lemma srt rows b HS HP).
Qed.

(** ** Collection *)
Lemma mid_bounds l r : l <= r -> l <= interval_mid (l, r) <= r
  /\ l + r - 1 <= 2 * interval_mid (l, r) <= l + r.
Proof.
  intro H. unfold interval_mid. cbn [fst snd].
  pose proof (Z.div_mod (r - l) 2). pose proof (Z.mod_pos_bound (r - l) 2). lia.
Qed.

Lemma fixed_even_lemma pid sat inst m p :
  m mod 2 = 0 -> 0 <= m <= snd p - fst p ->
  let o := mk_record pid sat inst {| acc_fixed := true; acc_min := m |} p in
  o_end o - o_start o = m /\ fst p <= o_start o /\ o_end o <= snd p
  /\ o_epoch o - o_start o = o_end o - o_epoch o.
Proof.
  intros Hm Hle. cbn. pose proof (timedelta_half_even m Hm).
  destruct p as [l r]. cbn [fst snd] in *.
  destruct (mid_bounds l r) as [_ Hb]; [lia|].
  repeat split; lia.
Qed.

(** The revisit column of a cell: missing as soon as one of its points has none,
    else the unweighted mean. *)
Lemma grid_revisit_lemma {G} (contains : G -> red -> bool) rows (cells : list (cell G)) out :
  rows <> [] -> NoDup (map c_id cells) ->
  grid_observations contains rows cells = Ok out ->
  forall r, In r out -> exists c, In c cells /\ c_id c = g_cell r /\
    let rs := in_cell contains c rows in
    rs <> [] /\
    match g_revisit r with
    | Some m => (forall x, In x rs -> r_revisit x <> None)
       /\ (m * inject_Z (Z.of_nat (length rs)) == sum_Q (filter_some (map r_revisit rs)))%Q
    | None => exists x, In x rs /\ r_revisit x = None
    end.
Proof.
  intros NE ND H r Hr. unfold grid_observations in H.
  destruct rows as [|r0 rows0] eqn:Erows; [congruence|]. rewrite <- Erows in *. clear Erows NE.
  cbv zeta in H. apply mapM_ok in H.
  destruct (Forall2_in_r _ _ _ _ H Hr) as [g [Hg E]].
  unfold group_by in Hg. apply in_map_iff in Hg as [k [<- Hk]].
  apply sjoin_keys in Hk as [c [Hc [<- NE]]].
  rewrite sjoin_group in E by assumption.
  set (rs := in_cell contains c rows) in *.
  exists c. split; [assumption|].
  destruct (grid_group r_samples rows (fun r => Some (r_access r)) (map (pair c) rs)) as [a|e];
    [|discriminate]. cbn [bind] in E.
  pose proof (grid_group_cell r_samples rows r_revisit c rs NE) as H1.
  destruct (loc r_samples rows (c_label c)) as [w|e]; [|rewrite H1 in E; discriminate].
  destruct (w =? 0); [rewrite H1 in E; discriminate|].
  destruct (forallb _ (map r_revisit rs)) eqn:EF.
  - destruct H1 as [m [Em Hm]]. rewrite Em in E. cbn [bind] in E. injection E as <-. cbn.
    split; [destruct rs; [congruence|reflexivity]|]. split; [assumption|]. split; [|exact Hm].
    intros x Hx. rewrite forallb_forall in EF. specialize (EF _ (in_map r_revisit _ _ Hx)).
    destruct (r_revisit x); discriminate.
  - rewrite H1 in E. cbn [bind] in E. injection E as <-. cbn.
    split; [destruct rs; [congruence|reflexivity]|]. split; [assumption|].
    fold rs. clear -EF. clearbody rs. induction rs as [|x rs IH]; [discriminate|]. simpl in EF.
    destruct (r_revisit x) as [v|] eqn:Ex.
    + destruct (IH EF) as [y [Hy Ey]]. exists y. split; [apply in_cons, Hy|assumption].
    + exists x. split; [apply in_eq|assumption].
Qed.

Lemma mapM_one_error {A B} (f : A -> pyres B) l e :
  (forall x, In x l -> (exists y, f x = Ok y) \/ f x = Raise e) ->
  ((exists ys, mapM f l = Ok ys) /\ (forall x, In x l -> exists y, f x = Ok y))
  \/ (mapM f l = Raise e /\ exists x, In x l /\ f x = Raise e).
Proof.
  induction l as [|x l IH]; intro H.
  - left. split; [now exists []|]. intros ? [].
  - destruct IH as [[[ys E] Hall]|[E [z [Hz Ez]]]]; [intros; apply H; now right | |].
    + destruct (H x (or_introl eq_refl)) as [[y Ey]|Ey].
      * left. split; [exists (y :: ys); simpl; rewrite Ey; simpl; now rewrite E|].
        intros z [<-|Hz]; eauto.
      * right. split; [simpl; now rewrite Ey|]. exists x. split; [now left | assumption].
    + destruct (H x (or_introl eq_refl)) as [[y Ey]|Ey].
      * right. split; [simpl; rewrite Ey; simpl; now rewrite E|]. exists z. split; [now right | assumption].
      * right. split; [simpl; now rewrite Ey|]. exists x. split; [now left | assumption].
Qed.

Lemma loc_outcome {R A} (f : R -> A) rows label :
  (0 <= label < Z.of_nat (length rows) /\ exists r, In r rows /\ loc f rows label = Ok (f r))
  \/ (~ 0 <= label < Z.of_nat (length rows) /\ loc f rows label = Raise KeyError).
Proof.
  unfold loc. destruct (Z.ltb_spec label 0).
  - right. split; [lia | reflexivity].
  - destruct (nth_error rows (Z.to_nat label)) as [r|] eqn:En.
    + left. assert (Z.to_nat label < length rows)%nat by (apply nth_error_Some; congruence).
      split; [lia|]. exists r. split; [eapply nth_error_In; eauto | reflexivity].
    + right. apply nth_error_None in En. split; [lia | reflexivity].
Qed.

Lemma grid_group_outcome {G R} (samples : R -> Z) rows vals (c : cell G) rs :
  rs <> [] -> (forall r, In r rows -> 0 < samples r) ->
  (0 <= c_label c < Z.of_nat (length rows) /\ exists v, grid_group samples rows vals (map (pair c) rs) = Ok v)
  \/ (~ 0 <= c_label c < Z.of_nat (length rows)
      /\ grid_group samples rows vals (map (pair c) rs) = Raise KeyError).
Proof.
  intros NE HP. pose proof (grid_group_cell samples rows vals c rs NE) as H.
  destruct (loc_outcome samples rows (c_label c)) as [[L (r & Hr & E)]|[L E]]; rewrite E in H.
  - left. split; [assumption|]. specialize (HP r Hr). destruct (Z.eqb_spec (samples r) 0); [lia|].
    destruct (forallb _ (map vals rs)); [destruct H as [m [H _]]|]; eauto.
  - right. auto.
Qed.

Lemma grid_outcome_lemma {G} (contains : G -> red -> bool) rows (cells : list (cell G)) :
  NoDup (map c_id cells) -> (forall r, In r rows -> 0 < r_samples r) ->
  let labelled := forall c, In c cells -> in_cell contains c rows <> [] ->
     0 <= c_label c < Z.of_nat (length rows) in
  (labelled /\ exists out, grid_observations contains rows cells = Ok out)
  \/ (~ labelled /\ grid_observations contains rows cells = Raise KeyError).
Proof.
  intros ND HP. cbv zeta. unfold grid_observations.
  destruct rows as [|r0 rows0] eqn:Erows.
  { left. split; [|eauto]. intros c Hc NE. now elim NE. }
  rewrite <- Erows in *. clear Erows. cbv zeta.
  set (row := fun g : list (cell G * red) => _).
  assert (HR : forall c, In c cells -> in_cell contains c rows <> [] ->
    (0 <= c_label c < Z.of_nat (length rows) /\ exists v, row (map (pair c) (in_cell contains c rows)) = Ok v)
    \/ (~ 0 <= c_label c < Z.of_nat (length rows)
        /\ row (map (pair c) (in_cell contains c rows)) = Raise KeyError)).
  { intros c Hc NE. unfold row.
    destruct (grid_group_outcome r_samples rows (fun r => Some (r_access r)) c _ NE HP) as [[L [v E]]|[L E]];
    rewrite E; [|now right]. simpl.
    destruct (grid_group_outcome r_samples rows r_revisit c _ NE HP) as [[L' [v' E']]|[L' E']]; [|tauto].
    rewrite E'. simpl. eauto. }
  unfold group_by.
  assert (HG : forall g, In g (map (fun k => group_rows (fun p => c_id (fst p)) k (sjoin contains cells rows))
       (group_keys (fun p => c_id (fst p)) (sjoin contains cells rows))) <->
     exists c, In c cells /\ in_cell contains c rows <> [] /\ g = map (pair c) (in_cell contains c rows)).
  { intro g. rewrite in_map_iff. split.
    - intros (k & <- & Hk). apply sjoin_keys in Hk as [c [Hc [<- NE]]].
      exists c. rewrite sjoin_group by assumption. auto.
    - intros (c & Hc & NE & ->). exists (c_id c). rewrite sjoin_group by assumption. split; [reflexivity|].
      apply sjoin_keys. exists c. auto. }
  match goal with |- context[mapM row ?l] => destruct (mapM_one_error row l KeyError) as [[E A]|[E A]] end.
  - intros g Hg. apply HG in Hg as (c & Hc & NE & ->). destruct (HR c Hc NE) as [[_ ?]|[_ ?]]; auto.
  - left. split; [|assumption]. intros c Hc NE. destruct (HR c Hc NE) as [[L _]|[_ F]]; [assumption|].
    destruct (A (map (pair c) (in_cell contains c rows))) as [y Ey]; [|congruence].
    apply HG. eauto.
  - right. split; [|assumption]. intro L. destruct A as (g & Hg & Eg). apply HG in Hg as (c & Hc & NE & ->).
    destruct (HR c Hc NE) as [[_ [v F]]|[F _]]; [congruence|]. apply F. now apply L.
Qed.
