(** Proofs about TLE selection and repeat cycles. *)
From Coq Require Import ZArith QArith List Bool Sorting.Sorted Sorting.Permutation Lia Lqa.
From Verif Require Import Base BaseFacts Coverage_Model Epoch_Model Epoch_Spec.
Import ListNotations.
Open Scope Z_scope.
Local Arguments Z.mul : simpl never.
Local Arguments Z.add : simpl never.

(** ** Closest TLE *)
Lemma sorted_split es t : StronglySorted Z.le es ->
  exists A B, es = A ++ B /\ Forall (fun e => e < t) A /\ Forall (fun e => t <= e) B
    /\ searchsorted es t = length A.
Proof.
  unfold searchsorted. induction 1 as [|x r Hr IH Hx].
  - exists [], []. repeat split; constructor.
  - destruct (Z.ltb_spec x t) as [Hlt|Hge].
    + destruct IH as (A & B & -> & HA & HB & E). exists (x :: A), B.
      repeat split; auto. simpl. destruct (Z.ltb_spec x t); [|lia]. simpl. f_equal. assumption.
    + exists [], (x :: r). split; [reflexivity|]. split; [constructor|]. split.
      * constructor; [assumption|]. eapply Forall_impl; [|exact Hx]. simpl. lia.
      * assert (E : filter (fun e => e <? t) (x :: r) = []).
        { apply (proj1 (Forall_forall _ _)) in Hx || idtac.
          assert (F : forall y, In y (x :: r) -> (y <? t) = false).
          { intros y [<-|Hy]; [now apply Z.ltb_ge|]. apply Z.ltb_ge. rewrite Forall_forall in Hx || idtac.
            specialize (Hx y Hy). lia. }
          clear -F. induction (x :: r) as [|z l IHl]; [reflexivity|]. simpl.
          rewrite (F z) by now left. apply IHl. intros; apply F; now right. }
        rewrite E. reflexivity.
Qed.

Lemma sorted_app_le A B a b : StronglySorted Z.le (A ++ B) -> In a A -> In b B -> a <= b.
Proof.
  intros H Ha Hb. induction A as [|x A IH]; [destruct Ha|]. simpl in H. inversion H; subst.
  destruct Ha as [<-|Ha]; [|auto]. rewrite Forall_forall in H3. apply H3. apply in_or_app. now right.
Qed.
Lemma ss_app_l A B : StronglySorted Z.le (A ++ B) -> StronglySorted Z.le A.
Proof.
  induction A as [|x A IH]; intro H; [constructor|]. simpl in H. inversion H; subst.
  constructor; [auto|]. apply Forall_app in H3. tauto.
Qed.
Lemma ss_app_r A B : StronglySorted Z.le (A ++ B) -> StronglySorted Z.le B.
Proof. induction A as [|x A IH]; intro H; [assumption|]. simpl in H. inversion H; subst. auto. Qed.
Lemma sorted_last_max A d a : StronglySorted Z.le A -> In a A -> a <= nth (length A - 1) A d.
Proof.
  intros H Ha. destruct (exists_last (l := A)) as [A' [x ->]]; [intros ->; destruct Ha|].
  rewrite app_length. simpl. replace (length A' + 1 - 1)%nat with (length A') by lia.
  rewrite nth_middle. apply in_app_or in Ha as [Ha|[->|[]]]; [|lia].
  apply (sorted_app_le A' [x] a x H Ha). now left.
Qed.

Lemma closest_nearest es t : es <> [] -> StronglySorted Z.le es -> nearest es t (closest es t).
Proof.
  intros NE HS. destruct (sorted_split es t HS) as (A & B & E & HA & HB & EI).
  unfold closest. rewrite EI. rewrite Forall_forall in HA, HB.
  assert (LA : A <> [] -> nth_error es (length A - 1) = Some (nth (length A - 1) es 0)
               /\ In (nth (length A - 1) es 0) A
               /\ forall a, In a A -> a <= nth (length A - 1) es 0).
  { intro NA. assert (0 < length A)%nat by (destruct A; [congruence|simpl; lia]).
    assert (EN : nth (length A - 1) es 0 = nth (length A - 1) A 0)
      by (rewrite E; apply app_nth1; lia).
    split; [apply nth_error_nth'; rewrite E, app_length; lia|].
    rewrite EN. split; [apply nth_In; lia|].
    intros a Ha. apply sorted_last_max; [|assumption]. apply (ss_app_l A B). now rewrite <- E. }
  assert (LB : B <> [] -> nth_error es (length A) = Some (nth (length A) es 0)
               /\ In (nth (length A) es 0) B
               /\ forall b, In b B -> nth (length A) es 0 <= b).
  { intro NB. destruct B as [|b0 B']; [congruence|].
    assert (EN : nth (length A) es 0 = b0) by (rewrite E; apply nth_middle).
    split; [apply nth_error_nth'; rewrite E, app_length; simpl; lia|].
    rewrite EN. split; [now left|]. intros b [<-|Hb]; [lia|].
    assert (SB : StronglySorted Z.le (b0 :: B')) by (apply (ss_app_r A); now rewrite <- E).
    inversion SB; subst. rewrite Forall_forall in H2. auto. }
  assert (Len : length es = (length A + length B)%nat) by (rewrite E; apply app_length).
  assert (Split : forall e', In e' es -> In e' A \/ In e' B).
  { intros e' He'. rewrite E in He'. now apply in_app_or. }
  set (xa := nth (length A - 1) es 0) in *. set (xb := nth (length A) es 0) in *.
  destruct (Nat.ltb_spec 0 (length A)) as [PA|PA]; cbn [andb].
  - assert (NA : A <> []) by (destruct A; [simpl in PA; lia|discriminate]).
    destruct (LA NA) as (Ea & Ia & Ma). pose proof (HA _ Ia) as Lta.
    destruct (Nat.eqb_spec (length A) (length es)) as [EL|NL]; cbn [orb].
    + assert (B = []) as EB by (destruct B; [reflexivity|simpl in Len; lia]).
      exists xa. split; [assumption|]. intros e' He'. destruct (Split e' He') as [Hin|Hin].
      * specialize (Ma e' Hin). specialize (HA e' Hin). simpl in HA. lia.
      * rewrite EB in Hin. destruct Hin.
    + assert (NB : B <> []) by (intros ->; simpl in Len; lia).
      destruct (LB NB) as (Eb & Ib & Mb). pose proof (HB _ Ib) as Ltb.
      destruct (Z.ltb_spec (Z.abs (t - xa)) (Z.abs (t - xb))) as [C|C].
      * exists xa. split; [assumption|]. intros e' He'. destruct (Split e' He') as [Hin|Hin].
        -- specialize (Ma e' Hin). specialize (HA e' Hin). simpl in HA. lia.
        -- specialize (Mb e' Hin). specialize (HB e' Hin). simpl in HB. lia.
      * exists xb. split; [assumption|]. intros e' He'. destruct (Split e' He') as [Hin|Hin].
        -- specialize (Ma e' Hin). specialize (HA e' Hin). simpl in HA. lia.
        -- specialize (Mb e' Hin). specialize (HB e' Hin). simpl in HB. lia.
  - assert (A = []) as EA by (destruct A; [reflexivity|simpl in PA; lia]).
    assert (NB : B <> []) by (intros ->; subst; auto).
    destruct (LB NB) as (Eb & Ib & Mb). pose proof (HB _ Ib) as Ltb.
    exists xb. split; [assumption|]. intros e' He'. destruct (Split e' He') as [Hin|Hin].
    + rewrite EA in Hin. destruct Hin.
    + specialize (Mb e' Hin). specialize (HB e' Hin). simpl in HB. lia.
Qed.

Lemma closest_valid es t : es <> [] -> StronglySorted Z.le es -> (closest es t < length es)%nat.
Proof.
  intros NE HS. destruct (closest_nearest es t NE HS) as [e [E _]]. apply nth_error_Some. congruence.
Qed.

(** ** Partition *)
Lemma np_sort_id es : StronglySorted Z.le es -> np_sort es = es.
Proof.
  unfold np_sort. induction 1 as [|x r Hr IH Hx]; [reflexivity|].
  simpl. rewrite IH. destruct r as [|y r]; [reflexivity|]. simpl. inversion Hx; subst.
  destruct (Z.leb_spec x y); [reflexivity|lia].
Qed.

Lemma half_bounds d : -1 <= 2 * timedelta_half d - d <= 1.
Proof.
  unfold timedelta_half. pose proof (Z.div_mod d 2). pose proof (Z.mod_pos_bound d 2).
  destruct (d mod 2 =? 0) eqn:E; [apply Z.eqb_eq in E; lia|].
  destruct (Z.even (d / 2)); lia.
Qed.

Lemma midpoints_spec es : es <> [] -> consecutive_midpoints es (midpoints es).
Proof.
  induction es as [|a es IH]; intro NE; [congruence|]. destruct es as [|b es].
  - split; [reflexivity|]. intros [|k] x y m H1 H2; discriminate || (destruct k; discriminate).
  - destruct IH as [L H]; [discriminate|]. split.
    + change (midpoints (a :: b :: es)) with ((b + timedelta_half (a - b)) :: midpoints (b :: es)).
      simpl length in *. lia.
    + intros [|k] x y m H1 H2 H3.
      * simpl in H1, H2. change (midpoints (a :: b :: es)) with ((b + timedelta_half (a - b)) :: midpoints (b :: es)) in H3.
        simpl in H3. injection H1 as <-. injection H2 as <-. injection H3 as <-.
        unfold is_midpoint. pose proof (half_bounds (a - b)). lia.
      * apply (H k x y m); assumption.
Qed.

Lemma half_mono_neg d : d <= 0 -> d <= timedelta_half d <= 0.
Proof. intro H. pose proof (half_bounds d). lia. Qed.

(** Midpoints lie between their epochs, hence are sorted. *)
Lemma midpoints_between es k a b m : StronglySorted Z.le es ->
  nth_error es k = Some a -> nth_error es (S k) = Some b -> nth_error (midpoints es) k = Some m ->
  a <= m <= b.
Proof.
  intro H. revert k. induction H as [|x r Hr IH Hx]; intros k Ea Eb Em; [destruct k; discriminate|].
  destruct r as [|y r]; [destruct k; [discriminate|destruct k; discriminate]|].
  change (midpoints (x :: y :: r)) with ((y + timedelta_half (x - y)) :: midpoints (y :: r)) in Em.
  destruct k as [|k].
  - simpl in Ea, Eb, Em. injection Ea as <-. injection Eb as <-. injection Em as <-.
    inversion Hx; subst. pose proof (half_mono_neg (x - y)). lia.
  - apply (IH k); assumption.
Qed.

Lemma midpoints_sorted es : StronglySorted Z.le es -> StronglySorted Z.le (midpoints es)
   /\ forall x, Forall (fun e => x <= e) es -> Forall (fun m => x <= m) (midpoints es).
Proof.
  induction 1 as [|x r Hr IH Hx]; [split; [constructor|intros; constructor]|].
  destruct r as [|y r]; [split; [constructor|intros; constructor]|].
  change (midpoints (x :: y :: r)) with ((y + timedelta_half (x - y)) :: midpoints (y :: r)).
  destruct IH as [I1 I2]. inversion Hx as [|? ? Hxy Hxr]; subst. inversion Hr as [|? ? Hr' Hyr]; subst.
  pose proof (half_mono_neg (x - y)) as HM. split.
  - constructor; [assumption|].
    assert (F : Forall (fun m => y <= m) (midpoints (y :: r))).
    { apply I2. constructor; [lia|]. assumption. }
    eapply Forall_impl; [|exact F]. simpl. lia.
  - intros z Hz. inversion Hz as [|? ? Hzx Hzr]; subst. constructor; [lia|]. apply I2. assumption.
Qed.

Lemma combine_seq_snd {A} (l : list A) n : map snd (combine (seq n (length l)) l) = l.
Proof. revert n. induction l as [|x l IH]; intro n; [reflexivity|]. simpl. f_equal. apply IH. Qed.
Lemma filter_enum {A} (f : A -> bool) (l : list A) n :
  map snd (filter (fun p => f (snd p)) (combine (seq n (length l)) l)) = filter f l.
Proof.
  revert n. induction l as [|x l IH]; intro n; [reflexivity|]. simpl.
  destruct (f x); simpl; rewrite IH; reflexivity.
Qed.
Lemma enum_in {A} (l : list A) n i x :
  In (i, x) (combine (seq n (length l)) l) <-> (n <= i)%nat /\ nth_error l (i - n) = Some x.
Proof.
  revert n. induction l as [|y l IH]; intro n; simpl.
  - split; [tauto|]. intros [_ H]. destruct (i - n)%nat; discriminate.
  - rewrite IH. split.
    + intros [[= <- <-]|[H1 H2]].
      * split; [lia|]. rewrite Nat.sub_diag. reflexivity.
      * split; [lia|]. replace (i - n)%nat with (S (i - S n)) by lia. assumption.
    + intros [H1 H2]. destruct (Nat.eq_dec n i) as [->|Hne].
      * left. rewrite Nat.sub_diag in H2. simpl in H2. congruence.
      * right. split; [lia|]. replace (i - n)%nat with (S (i - S n)) in H2 by lia. assumption.
Qed.

Lemma ss_filter (f : Z -> bool) l : StronglySorted Z.le l -> StronglySorted Z.le (filter f l).
Proof.
  induction 1 as [|x r Hr IH Hx]; [constructor|]. simpl. destruct (f x); [|assumption].
  constructor; [assumption|]. apply Forall_forall. intros y Hy. apply filter_In in Hy as [Hy _].
  rewrite Forall_forall in Hx. auto.
Qed.

Lemma partition_lemma argsort es start end_ ts is :
  is_argsort argsort -> es <> [] -> StronglySorted Z.le es -> start <= end_ ->
  partition_by_tle_index argsort es start end_ = (ts, is) ->
  (exists ms, consecutive_midpoints es ms /\
     ts = start :: filter (fun m => (start <? m) && (m <? end_)) ms ++ [end_])
  /\ StronglySorted Z.le ts /\ length is = length ts
  /\ Forall (fun i => (i < length es)%nat) is.
Proof.
  intros HA NE HS Hse E. unfold partition_by_tle_index in E.
  destruct (Nat.leb_spec (length es) 1) as [L|L].
  - injection E as <- <-. assert (exists e, es = [e]) as [e ->].
    { destruct es as [|e [|? ?]]; [congruence|eauto|simpl in L; lia]. }
    split; [exists []; split; [split; [reflexivity|intros [|k] ? ? ? ? ?; try discriminate; destruct k; discriminate]|reflexivity]|].
    split; [repeat constructor; assumption|]. split; [reflexivity|]. repeat constructor.
  - cbv zeta in E. rewrite np_sort_id in E by assumption. unfold enumerate in E.
    set (sel := filter _ _) in E.
    assert (Es : map snd sel = filter (fun m => (start <? m) && (m <? end_)) (midpoints es)).
    { unfold sel. apply (filter_enum (fun m => (start <? m) && (m <? end_))). }
    injection E as <- <-. rewrite Es. split; [|split; [|split]].
    + exists (midpoints es). split; [now apply midpoints_spec|reflexivity].
    + constructor.
      * set (l := filter _ (midpoints es)).
        assert (SL : StronglySorted Z.le l) by (apply ss_filter, midpoints_sorted; assumption).
        assert (HB : Forall (fun m => m <= end_) l).
        { apply Forall_forall. intros m Hm. apply filter_In in Hm as [_ Hm].
          apply andb_true_iff in Hm as [_ Hm]. apply Z.ltb_lt in Hm. lia. }
        clearbody l. induction SL as [|x r Hr IH Hx]; [repeat constructor|].
        simpl. inversion HB; subst. constructor; [auto|]. apply Forall_app. split; [assumption|].
        constructor; [assumption|constructor].
      * apply Forall_app. split; [|constructor; [assumption|constructor]].
        apply Forall_forall. intros m Hm. apply filter_In in Hm as [_ Hm].
        apply andb_true_iff in Hm as [Hm _]. apply Z.ltb_lt in Hm. lia.
    + simpl. rewrite <- Es, !app_length, !map_length. reflexivity.
    + constructor; [now apply closest_valid|]. apply Forall_app. split; [|constructor; [now apply closest_valid|constructor]].
      apply Forall_forall. intros i Hi. apply in_map_iff in Hi as [[k m] [<- Hk]]. simpl.
      unfold sel in Hk. apply filter_In in Hk as [Hk _]. apply enum_in in Hk as [_ Hk].
      rewrite Nat.sub_0_r in Hk. assert (Hk' : (k < length (midpoints es))%nat) by (apply nth_error_Some; congruence).
      destruct (midpoints_spec es NE) as [LM _]. destruct (HA es) as [PA _].
      assert (LA : length (argsort es) = length es) by (rewrite (Permutation_length PA); apply seq_length).
      assert (In (nth k (argsort es) 0%nat) (argsort es)) by (apply nth_In; lia).
      apply (Permutation_in _ PA) in H. apply in_seq in H. lia.
Qed.

(** For distinct epochs the argsort is the identity. *)
Lemma argsort_id argsort es : is_argsort argsort -> StronglySorted Z.lt es -> argsort es = seq 0 (length es).
Proof.
  intros HA HS. destruct (HA es) as [P S].
  assert (SL : StronglySorted lt (argsort es)).
  { assert (ND : NoDup (argsort es)) by (apply (Permutation_NoDup (Permutation_sym P)), seq_NoDup).
    assert (B : Forall (fun i => (i < length es)%nat) (argsort es)).
    { apply Forall_forall. intros i Hi. apply (Permutation_in _ P), in_seq in Hi. lia. }
    assert (Mono : forall i j, (i < length es)%nat -> (j < length es)%nat -> i <> j ->
              nth i es 0 <= nth j es 0 -> (i < j)%nat).
    { clear -HS. intros i j Hi Hj Hij Hle.
      destruct (Nat.lt_trichotomy i j) as [H|[H|H]]; [assumption|congruence|]. exfalso.
      assert (nth j es 0 < nth i es 0); [|lia]. clear Hle Hij Hj.
      revert i j Hi H. induction HS as [|x r Hr IH Hx]; intros i j Hi H; [simpl in Hi; lia|].
      destruct i as [|i]; [lia|]. simpl. destruct j as [|j].
      - rewrite Forall_forall in Hx. apply Hx. apply nth_In. simpl in Hi. lia.
      - apply IH; simpl in Hi; lia. }
    apply Sorted_StronglySorted in S; [|intros ? ? ?; lia].
    clear P HA. induction (argsort es) as [|i l IH]; [constructor|].
    simpl in S. inversion S as [|? ? S1 S2]; subst. inversion ND as [|? ? N1 N2]; subst. inversion B as [|? ? B1 B2]; subst.
    constructor; [auto|]. apply Forall_forall. intros j Hj.
    rewrite Forall_forall in S2, B2. apply Mono; auto.
    - intros ->. auto.
    - apply S2. now apply (in_map (fun i => nth i es 0)). }
  assert (SS : StronglySorted lt (seq 0 (length es))).
  { clear. generalize 0%nat. induction (length es) as [|n IH]; intro k; simpl; constructor; [apply IH|].
    apply Forall_forall. intros j Hj. apply in_seq in Hj. lia. }
  clear S HA HS. revert P SS. generalize (seq 0 (length es)). induction SL as [|i l Hl IH Hi]; intros m P SS.
  - apply Permutation_nil in P. now subst.
  - destruct m as [|j m]; [apply Permutation_sym, Permutation_nil in P; discriminate|].
    inversion SS as [|? ? S1 S2]; subst.
    assert (i = j) as ->.
    { assert (In i (j :: m)) as [->|Hi'] by (apply (Permutation_in _ P); now left); [reflexivity|].
      assert (In j (i :: l)) as [<-|Hj'] by (apply (Permutation_in _ (Permutation_sym P)); now left); [reflexivity|].
      rewrite Forall_forall in S2, Hi. specialize (S2 _ Hi'). specialize (Hi _ Hj'). lia. }
    f_equal. apply IH; [|assumption]. now apply Permutation_cons_inv in P.
Qed.

Lemma later_segment_lemma argsort es start end_ ts is k t0 i :
  is_argsort argsort -> StronglySorted Z.lt es -> (1 < length es)%nat ->
  partition_by_tle_index argsort es start end_ = (ts, is) ->
  (S k < length ts - 1)%nat -> nth_error ts (S k) = Some t0 -> nth_error is (S k) = Some i ->
  exists e e', nth_error es i = Some e /\ nth_error es (S i) = Some e'
    /\ forall t, t0 < t -> Z.abs (t - e') < Z.abs (t - e).
Proof.
  intros HA HS L E Hk Et Ei. unfold partition_by_tle_index in E.
  destruct (Nat.leb_spec (length es) 1) as [L'|L']; [lia|]. clear L'. cbv zeta in E.
  assert (HS' : StronglySorted Z.le es).
  { clear -HS. induction HS; constructor; auto. eapply Forall_impl; [|eassumption]. simpl. lia. }
  rewrite np_sort_id, (argsort_id _ _ HA HS) in E by assumption. unfold enumerate in E.
  set (sel := filter _ _) in E. injection E as <- <-.
  simpl in Et, Ei, Hk. rewrite app_length, map_length in Hk. simpl in Hk.
  rewrite nth_error_app1 in Et by (rewrite map_length; lia).
  rewrite nth_error_app1 in Ei by (rewrite map_length; lia).
  rewrite nth_error_map in Et, Ei. destruct (nth_error sel k) as [[j m]|] eqn:Es; [|discriminate].
  simpl in Et, Ei. injection Et as <-. injection Ei as <-.
  apply nth_error_In in Es. unfold sel in Es. apply filter_In in Es as [Es _].
  apply enum_in in Es as [_ Es]. rewrite Nat.sub_0_r in Es.
  destruct (midpoints_spec es ltac:(intros ->; simpl in L; lia)) as [LM HM].
  assert (Hj : (j < length (midpoints es))%nat) by (apply nth_error_Some; congruence).
  rewrite seq_nth by lia. simpl.
  destruct (nth_error es j) as [a|] eqn:Ea; [|apply nth_error_None in Ea; lia].
  destruct (nth_error es (S j)) as [b|] eqn:Eb; [|apply nth_error_None in Eb; lia].
  specialize (HM j a b m Ea Eb Es). unfold is_midpoint in HM.
  assert (a < b).
  { clear -HS Ea Eb. revert j Ea Eb. induction HS as [|x r Hr IH Hx]; intros j Ea Eb; [destruct j; discriminate|].
    destruct j as [|j]; simpl in Ea, Eb.
    - injection Ea as <-. rewrite Forall_forall in Hx. apply Hx. apply (nth_error_In r 0). exact Eb.
    - eauto. }
  pose proof (midpoints_between es j a b m HS' Ea Eb Es).
  exists a, b. repeat split; auto. intros t Ht. lia.
Qed.

Lemma next_above es e e' : StronglySorted Z.le es -> In e es -> In e' es -> e < e' ->
  exists k b, nth_error es k = Some e /\ nth_error es (S k) = Some b /\ e < b <= e'.
Proof.
  induction 1 as [|x r Hr IH Hx]; intros He He' Hlt; [destruct He|].
  destruct He' as [<-|He'].
  { destruct He as [->|He]; [lia|]. rewrite Forall_forall in Hx. specialize (Hx _ He). lia. }
  assert (In e r \/ (x = e /\ ~ In e r)) as [Hin|[-> Hni]].
  { destruct (in_dec Z.eq_dec e r); [now left|]. destruct He; [right; auto|now left]. }
  - destruct (IH Hin He' Hlt) as (k & b & H1 & H2 & H3). exists (S k), b. auto.
  - destruct r as [|y r]; [destruct He'|]. exists 0%nat, y. simpl. split; [reflexivity|]. split; [reflexivity|].
    rewrite Forall_forall in Hx. assert (e <> y) by (intros ->; apply Hni; now left).
    assert (e <= y) by (apply Hx; now left). split; [lia|].
    destruct He' as [->|He']; [lia|]. inversion Hr as [|? ? R1 R2]; subst.
    rewrite Forall_forall in R2. now apply R2.
Qed.

Lemma half_exact d : Z.even d = true -> 2 * timedelta_half d = d.
Proof.
  intro H. unfold timedelta_half. apply Z.even_spec in H as [k ->].
  replace ((2 * k) mod 2) with 0 by (rewrite Z.mul_comm; symmetry; apply Z.mod_mul; lia).
  simpl. rewrite (Z.mul_comm 2 k), Z.div_mul by lia. lia.
Qed.

Lemma midpoint_at es k a b : nth_error es k = Some a -> nth_error es (S k) = Some b ->
  nth_error (midpoints es) k = Some (b + timedelta_half (a - b)).
Proof.
  revert k. induction es as [|x es IH]; intros k Ha Hb; [destruct k; discriminate|].
  destruct es as [|y es]; [destruct k; [discriminate|destruct k; discriminate]|].
  change (midpoints (x :: y :: es)) with ((y + timedelta_half (x - y)) :: midpoints (y :: es)).
  destruct k as [|k].
  - simpl in Ha, Hb. injection Ha as <-. injection Hb as <-. reflexivity.
  - apply IH; assumption.
Qed.

(** The first segment uses the closest TLE throughout. *)
Lemma first_segment_lemma argsort es start end_ ts is t1 t :
  es <> [] -> StronglySorted Z.le es ->
  (forall a b, In a es -> In b es -> Z.even (a - b) = true) ->
  partition_by_tle_index argsort es start end_ = (ts, is) ->
  nth_error ts 1 = Some t1 -> start <= t <= t1 -> start <= end_ ->
  exists i e, nth_error is 0 = Some i /\ nth_error es i = Some e
    /\ forall e', In e' es -> Z.abs (t - e) <= Z.abs (t - e').
Proof.
  intros NE HS EV E Et Ht Hend. unfold partition_by_tle_index in E.
  destruct (Nat.leb_spec (length es) 1) as [L'|L'].
  { injection E as <- <-. destruct es as [|e0 [|? ?]]; [congruence| |simpl in L'; lia].
    exists 0%nat, e0. repeat split. intros e' [<-|[]]. lia. }
  cbv zeta in E.
  rewrite np_sort_id in E by assumption. unfold enumerate in E.
  set (sel := filter _ _) in E.
  assert (Es : map snd sel = filter (fun m => (start <? m) && (m <? end_)) (midpoints es)).
  { unfold sel. apply (filter_enum (fun m => (start <? m) && (m <? end_))). }
  injection E as <- <-. exists (closest es start).
  destruct (closest_nearest es start NE HS) as [e [Ee He]]. exists e. split; [reflexivity|].
  split; [assumption|]. intros e' He'.
  destruct (Z_le_gt_dec e' e) as [Hle|Hgt].
  { destruct (He e' He') as [H1 _]. lia. }
  destruct (next_above es e e' HS (nth_error_In _ _ Ee) He' ltac:(lia)) as (k & b & Hk & Hb & Hlt).
  pose proof (midpoint_at es k e b Hk Hb) as Em.
  assert (E2 : 2 * timedelta_half (e - b) = e - b)
    by (apply half_exact, EV; eapply nth_error_In; eassumption).
  set (m := b + timedelta_half (e - b)) in *.
  destruct (He b (nth_error_In _ _ Hb)) as [D1 D2].
  assert (start < m) by lia.
  assert (t1 <= m).
  { rewrite Es in Et. simpl in Et.
    destruct (Z_lt_ge_dec m end_) as [Hme|Hme].
    - assert (Hin : In m (filter (fun m => (start <? m) && (m <? end_)) (midpoints es))).
      { apply filter_In. split; [eapply nth_error_In; eassumption|].
        apply andb_true_iff. split; now apply Z.ltb_lt. }
      assert (SF := ss_filter (fun m => (start <? m) && (m <? end_)) _ (proj1 (midpoints_sorted es HS))).
      destruct (filter _ (midpoints es)) as [|m0 ms]; [destruct Hin|]. simpl in Et. injection Et as <-.
      destruct Hin as [->|Hin]; [lia|]. inversion SF as [|? ? S1 S2]; subst. rewrite Forall_forall in S2. now apply S2.
    - destruct (filter _ (midpoints es)) as [|m0 ms] eqn:EF; simpl in Et; injection Et as <-; [lia|].
      assert (In m0 (m0 :: ms)) as Hin by now left. rewrite <- EF in Hin. apply filter_In in Hin as [_ Hin].
      apply andb_true_iff in Hin as [_ Hin]. apply Z.ltb_lt in Hin. lia. }
  lia.
Qed.

(** ** Folding *)
Lemma fold_lemma epoch c t : 0 < c ->
  let u := fold_time epoch c t in
  Z.abs (u - epoch) < c
  /\ (epoch <= t -> epoch <= u) /\ (t <= epoch -> u <= epoch)
  /\ (exists k, 0 <= k /\ t - u = Z.sgn (t - epoch) * (k * c))
  /\ (Z.abs (t - epoch) < c -> u = t).
Proof.
  intros Hc u. unfold u, fold_time.
  pose proof (Z.mod_pos_bound (Z.abs (t - epoch)) c Hc) as B.
  pose proof (Z.div_mod (Z.abs (t - epoch)) c ltac:(lia)) as D.
  assert (0 <= Z.abs (t - epoch) / c) by (apply Z.div_pos; lia).
  set (q := Z.abs (t - epoch) / c) in *. set (r := Z.abs (t - epoch) mod c) in *.
  assert (C : (t - epoch > 0 /\ Z.sgn (t - epoch) = 1) \/ (t = epoch /\ Z.sgn (t - epoch) = 0)
     \/ (t - epoch < 0 /\ Z.sgn (t - epoch) = -1)).
  { destruct (Z.sgn_spec (t - epoch)) as [[? ?]|[[? ?]|[? ?]]]; lia. }
  split; [|split; [|split; [|split]]].
  - destruct C as [[? ->]|[[? ->]|[? ->]]]; lia.
  - destruct C as [[? ->]|[[? ->]|[? ->]]]; lia.
  - destruct C as [[? ->]|[[? ->]|[? ->]]]; lia.
  - exists q. split; [assumption|]. rewrite (Z.mul_comm q c).
    destruct C as [[? ->]|[[? ->]|[? ->]]]; lia.
  - intro Hs. assert (r = Z.abs (t - epoch)) by (unfold r; apply Z.mod_small; lia).
    destruct C as [[? ->]|[[? ->]|[? ->]]]; lia.
Qed.

(** ** Repeat cycle search *)
Lemma Qltb_spec x y : Qltb x y = true <-> (x < y)%Q.
Proof.
  unfold Qltb. rewrite negb_true_iff. destruct (Qle_bool y x) eqn:E.
  - apply Qle_bool_iff in E. split; [discriminate|]. intro H. exfalso. apply (Qlt_not_le _ _ H E).
  - split; [|reflexivity]. intros _. apply Qnot_le_lt. intro H. apply Qle_bool_iff in H. congruence.
Qed.

Lemma find_split {A} (f : A -> bool) l x : List.find f l = Some x ->
  exists l1 l2, l = l1 ++ x :: l2 /\ f x = true /\ Forall (fun y => f y = false) l1.
Proof.
  induction l as [|y l IH]; [discriminate|]. simpl. destruct (f y) eqn:E.
  - intros [= <-]. exists [], l. repeat split; auto.
  - intro H. destruct (IH H) as (l1 & l2 & -> & H1 & H2). exists (y :: l1), l2. repeat split; auto.
Qed.

Lemma admissible_iff s c :
  Qltb (c_dpos c) (s_dpos s) && Qltb (c_dvel c) (s_dvel s) = true <-> admissible s c.
Proof. rewrite andb_true_iff, !Qltb_spec. reflexivity. Qed.

Lemma fresh_lemma cfg find epoch a ans :
  (forall el d c, In c (find el d) -> epoch < c_time c) ->
  snd (get_repeat_cycle cfg find epoch None a) = ans ->
  let s := mk_search (match a_dpos a with Some x => x | None => s_dpos (rc_search cfg) end)
             (match a_dvel a with Some x => x | None => s_dvel (rc_search cfg) end)
             (match a_elev a with Some x => x | None => s_elev (rc_search cfg) end)
             (match a_duration a with Some x => x | None => s_duration (rc_search cfg) end) in
  let cs := find (s_elev s) (s_duration s) in
  match ans with
  | Some r => 0 < r /\ exists l1 c l2, cs = l1 ++ c :: l2 /\ admissible s c
                /\ Forall (fun c' => ~ admissible s c') l1 /\ r = c_time c - epoch
  | None => Forall (fun c => ~ admissible s c) cs
  end.
Proof.
  intros HT E. cbv zeta. unfold get_repeat_cycle in E. cbv zeta in E.
  set (s := effective cfg a) in E.
  change (mk_search _ _ _ _) with s.
  assert (E' : (let r := search_cycle find epoch s in if 0 <? r then Some r else None) = ans)
    by (destruct (default (a_lazy a) (rc_lazy cfg)); exact E).
  clear E. unfold search_cycle in E'.
  set (f := fun c => Qltb (c_dpos c) (s_dpos s) && Qltb (c_dvel c) (s_dvel s)) in E'.
  assert (NF : forall l, Forall (fun y => f y = false) l -> Forall (fun c => ~ admissible s c) l).
  { intros l Hl. eapply Forall_impl; [|exact Hl]. intros c Hc Ha. apply admissible_iff in Ha. unfold f in Hc. congruence. }
  destruct (List.find f (find (s_elev s) (s_duration s))) as [c|] eqn:EF.
  - destruct (find_split _ _ _ EF) as (l1 & l2 & El & Hf & Hl).
    assert (epoch < c_time c) by (apply (HT (s_elev s) (s_duration s)); rewrite El; apply in_or_app; right; now left).
    destruct (Z.ltb_spec 0 (c_time c - epoch)) as [P|P]; [|lia]. subst ans. split; [lia|].
    exists l1, c, l2. split; [assumption|]. split; [now apply admissible_iff|]. split; [now apply NF|reflexivity].
  - simpl in E'. subst ans. apply NF. apply Forall_forall. intros c Hc.
    apply (find_none _ _ EF c Hc).
Qed.

(** Answers of a history. *)
Definition fresh cfg find epoch a := snd (get_repeat_cycle cfg find epoch None a).

Lemma calls_eager cfg find epoch cache l :
  Forall (fun a => a_lazy a = Some false \/ (a_lazy a = None /\ rc_lazy cfg = false)) l ->
  calls cfg find epoch cache l = map (fresh cfg find epoch) l.
Proof.
  revert cache. induction l as [|a l IH]; intros cache H; [reflexivity|].
  inversion H as [|? ? H1 H2]; subst. cbn [calls map].
  assert (default (a_lazy a) (rc_lazy cfg) = false) as EL by (destruct H1 as [->|[-> ->]]; reflexivity).
  unfold fresh at 1. unfold get_repeat_cycle at 1 2. rewrite EL. cbv zeta. f_equal. now apply IH.
Qed.

Lemma calls_same_args cfg find epoch s l cache :
  (cache = None \/ cache = Some (search_cycle find epoch s)) ->
  Forall (fun a => effective cfg a = s) l ->
  calls cfg find epoch cache l = map (fresh cfg find epoch) l.
Proof.
  revert cache. induction l as [|a l IH]; intros cache HC H; [reflexivity|].
  inversion H as [|? ? H1 H2]; subst. cbn [calls map].
  unfold fresh at 1. unfold get_repeat_cycle at 1 2. cbv zeta.
  destruct (default (a_lazy a) (rc_lazy cfg)); destruct HC as [->| ->]; simpl; f_equal; apply IH; auto.
Qed.

(** ** Epoch cache *)
Section EpochCacheProofs.
Context {T : Type} (decode : T -> list Z).
Fixpoint run_actions (s : orbit_state) (l : list action) : list (option indices) :=
  match l with
  | [] => []
  | x :: r => let (s', o) := step decode s x in o :: run_actions s' r
  end.
Lemma run_no_assign (v : T) c l :
  (c = None \/ c = Some (decode v)) ->
  Forall (fun x => match x with Assign _ => False | Query _ => True end) l ->
  run_actions (mk_orbit v c) l
  = map (fun x => match x with Query a => Some (get_closest_tle_index (decode v) a) | Assign _ => None end) l.
Proof.
  revert c. induction l as [|x l IH]; intros c HC H; [reflexivity|].
  inversion H as [|? ? H1 H2]; subst. destruct x as [w|a]; [destruct H1|].
  cbn [run_actions map]. destruct a as [|t|ts]; destruct HC as [-> | ->]; simpl; f_equal; apply IH; auto.
Qed.
End EpochCacheProofs.

(** ** Observation events *)
Lemma ss_app (l1 l2 : list Z) b : StronglySorted Z.le l1 -> StronglySorted Z.le l2 ->
  Forall (fun t => t <= b) l1 -> Forall (fun t => b <= t) l2 -> StronglySorted Z.le (l1 ++ l2).
Proof.
  induction 1 as [|x r Hr IH Hx]; intros H2 F1 F2; [assumption|]. simpl. inversion F1; subst.
  constructor; [auto|]. apply Forall_app. split; [assumption|]. eapply Forall_impl; [|exact F2]. simpl. lia.
Qed.

Lemma combine_app {A B} (a a' : list A) (b b' : list B) : length a = length b ->
  combine (a ++ a') (b ++ b') = combine a b ++ combine a' b'.
Proof. revert b. induction a as [|x a IH]; intros [|y b] H; try discriminate; [reflexivity|]. simpl. f_equal. apply IH. now injection H. Qed.

Section EventsProofs.
Variable find_events : nat -> Z -> Z -> list Z * list Z.
Hypothesis FE : forall i a b, a <= b -> event_table a b (find_events i a b).

Lemma multi_lemma ts is t0 tn :
  StronglySorted Z.le ts -> length is = length ts -> hd_error ts = Some t0 -> last ts tn = tn ->
  Forall (fun t => t <= tn) ts ->
  event_table t0 tn (multi_events find_events (ts, is))
  /\ forall t e, has_event (multi_events find_events (ts, is)) t e <->
       exists k i a b, nth_error ts k = Some a /\ nth_error ts (S k) = Some b /\ nth_error is k = Some i
         /\ has_event (find_events i a b) t e.
Proof.
  intros HS. revert is t0. induction HS as [|x r Hr IH Hx]; intros is t0 HL Hh Hl HF; [discriminate|].
  simpl in Hh. injection Hh as <-. destruct is as [|i is]; [discriminate|]. simpl in HL.
  destruct r as [|y r].
  - split.
    + repeat split; constructor.
    + intros t e. split; [intros []|]. intros ([|k] & j & a & b & Ha & Hb & _); [discriminate|destruct k; discriminate].
  - inversion HF as [|? ? F1 F2]; subst.
    destruct (IH is y) as [[L1 [L2 L3]] HE]; [lia|reflexivity|exact Hl|assumption|].
    inversion Hx as [|? ? Hxy _]; subst. inversion F2 as [|? ? Hyn _]; subst.
    destruct (FE i x y Hxy) as [G1 [G2 G3]].
    set (M := multi_events find_events (y :: r, is)) in *.
    assert (EM : multi_events find_events (x :: y :: r, i :: is)
       = (fst (find_events i x y) ++ fst M, snd (find_events i x y) ++ snd M)) by reflexivity.
    split.
    + rewrite EM. split; [|split]; cbn [fst snd].
      * rewrite !app_length. lia.
      * apply (ss_app _ _ y); auto; (eapply Forall_impl; [|eassumption]); simpl; lia.
      * apply Forall_app. split; (eapply Forall_impl; [|eassumption]); simpl; lia.
    + intros t e. rewrite EM. unfold has_event at 1. cbn [fst snd]. rewrite combine_app by assumption.
      rewrite in_app_iff. fold (has_event M t e). rewrite HE. split.
      * intros [H|(k & j & a & b & H1 & H2 & H3 & H4)].
        -- exists 0%nat, i, x, y. auto.
        -- exists (S k), j, a, b. auto.
      * intros ([|k] & j & a & b & H1 & H2 & H3 & H4).
        -- simpl in H1, H2, H3. injection H1 as <-. injection H2 as <-. injection H3 as <-. now left.
        -- right. exists k, j, a, b. auto.
Qed.

(** Repeating. *)
Lemma ceil_div_spec a b : 0 < b -> forall k, ceil_div a b <= k <-> a <= k * b.
Proof.
  intros Hb k. unfold ceil_div. rewrite <- (Z.opp_involutive k) at 1. rewrite <- Z.opp_le_mono.
  rewrite <- Z.lt_succ_r, <- Z.nle_gt. split.
  - intro H. pose proof (Z.mul_div_le (- a) b Hb). pose proof (Z.mul_succ_div_gt (- a) b Hb).
    assert (- k <= - a / b) by lia. nia.
  - intros H H'. pose proof (Z.mul_div_le (- a) b Hb). pose proof (Z.mul_succ_div_gt (- a) b Hb). nia.
Qed.

Lemma mask_combine {A B} (keep : list bool) (a : list A) (b : list B) :
  length a = length b -> length keep = length a ->
  combine (mask keep a) (mask keep b) = map snd (filter fst (combine keep (combine a b))).
Proof.
  unfold mask. revert a b. induction keep as [|k keep IH]; intros a b H1 H2; [reflexivity|].
  destruct a as [|x a]; [discriminate|]. destruct b as [|y b]; [discriminate|].
  injection H1 as H1. injection H2 as H2. simpl. destruct k; simpl; rewrite IH by assumption; reflexivity.
Qed.
Lemma mask_map (f : Z -> bool) l : mask (map f l) l = filter f l.
Proof. unfold mask. induction l as [|x l IH]; [reflexivity|]. simpl. destruct (f x); simpl; [f_equal|]; assumption. Qed.
Lemma mask_map_pairs (f : Z -> bool) l (m : list Z) : length l = length m ->
  map snd (filter fst (combine (map f l) (combine l m))) = filter (fun p => f (fst p)) (combine l m).
Proof.
  revert m. induction l as [|x l IH]; intros [|y m] H; try discriminate; [reflexivity|].
  injection H as H. simpl. destruct (f x); simpl; [f_equal|]; auto.
Qed.
Lemma mask_length {A B} keep (a : list A) (b : list B) : length a = length b -> length (mask keep a) = length (mask keep b).
Proof.
  unfold mask. revert a b. induction keep as [|k keep IH]; intros [|x a] [|y b] H; try discriminate; try reflexivity.
  injection H as H. simpl. destruct k; simpl; auto.
Qed.

Section Rep.
Variables (c start : Z) (bt bc : list Z).
Hypothesis Hc : 0 < c.
Hypothesis BT : event_table start (start + c) (bt, bc).
Let times n k := flat_map (fun i => map (fun t => t + Z.of_nat i * c) bt) (seq k n).
Let codes (n k : nat) := flat_map (fun _ : nat => bc) (seq k n).

Lemma rep_length n k : length (times n k) = length (codes n k).
Proof.
  destruct BT as [L _]. simpl in L. unfold times, codes. revert k.
  induction n as [|n IH]; intro k; [reflexivity|]. simpl. rewrite !app_length, map_length, L, IH. reflexivity.
Qed.
Lemma rep_sorted n k : StronglySorted Z.le (times n k) /\ Forall (fun t => start + Z.of_nat k * c <= t) (times n k).
Proof.
  destruct BT as [L [SB F]]. simpl in SB, F. unfold times. revert k.
  induction n as [|n IH]; intro k; [split; constructor|]. cbn [seq flat_map].
  destruct (IH (S k)) as [I1 I2]. split.
  - apply (ss_app _ _ (start + Z.of_nat (S k) * c)); auto.
    + clear -SB. induction SB as [|x r Hr IHr Hx]; simpl; constructor; auto.
      rewrite Forall_map. eapply Forall_impl; [|exact Hx]. simpl. lia.
    + rewrite Forall_map. eapply Forall_impl; [|exact F]. simpl. intros. lia.
  - apply Forall_app. split.
    + rewrite Forall_map. eapply Forall_impl; [|exact F]. simpl. lia.
    + eapply Forall_impl; [|exact I2]. simpl. lia.
Qed.
Lemma rep_in n k t e : In (t, e) (combine (times n k) (codes n k)) <->
  exists i t', (k <= i < k + n)%nat /\ In (t', e) (combine bt bc) /\ t = t' + Z.of_nat i * c.
Proof.
  destruct BT as [L _]. simpl in L. unfold times, codes. revert k.
  induction n as [|n IH]; intro k.
  - simpl. split; [tauto|]. intros (i & ? & H & _). lia.
  - cbn [seq flat_map]. rewrite combine_app by now rewrite map_length. rewrite in_app_iff, IH.
    assert (EC : In (t, e) (combine (map (fun t => t + Z.of_nat k * c) bt) bc) <->
      exists t', In (t', e) (combine bt bc) /\ t = t' + Z.of_nat k * c).
    { clear. revert bc. induction bt as [|x l IH]; intro m; [simpl; split; [tauto|intros (? & [] & _)]|].
      destruct m as [|y m]; [simpl; split; [tauto|intros (? & [] & _)]|]. simpl. rewrite IH. split.
      - intros [[= <- <-]|(t' & H1 & H2)]; [exists x; auto|exists t'; auto].
      - intros (t' & [[= <- <-]|H1] & H2); [left; congruence|right; exists t'; auto]. }
    rewrite EC. split.
    + intros [(t' & H1 & H2)|(i & t' & H1 & H2 & H3)]; [exists k, t'|exists i, t']; repeat split; auto; lia.
    + intros (i & t' & H1 & H2 & H3). destruct (Nat.eq_dec i k) as [->|Hne].
      * left. exists t'. auto.
      * right. exists i, t'. repeat split; auto; lia.
Qed.
End Rep.

Lemma repeat_lemma c start end_ : 0 < c -> start <= end_ ->
  event_table start end_ (repeat_events find_events c start end_)
  /\ forall t e, has_event (repeat_events find_events c start end_) t e <->
       t <= end_ /\ exists i t', 0 <= i /\ i * c < end_ - start
          /\ has_event (find_events 0%nat start (start + c)) t' e /\ t = t' + i * c.
Proof.
  intros Hc Hse. assert (BT := FE 0%nat start (start + c) ltac:(lia)).
  unfold repeat_events. destruct (find_events 0%nat start (start + c)) as [bt bc] eqn:EB.
  cbn [fst snd] in *. cbv zeta. destruct (Nat.eqb_spec (length bt) 0) as [Z0|NZ].
  { destruct bt; [|discriminate]. split; [repeat split; constructor|]. intros t e. unfold has_event. simpl.
    split; [tauto|]. intros (_ & i & t' & _ & _ & [] & _). }
  set (n := Z.to_nat (ceil_div (end_ - start) c)).
  pose proof (rep_length c start bt bc BT n 0) as RL. pose proof (rep_sorted c start bt bc Hc BT n 0) as [RS RF].
  pose proof (rep_in c start bt bc BT n 0) as RI.
  cbv beta in RL, RS, RF, RI.
  set (tm := flat_map _ _) in *. set (cm := flat_map _ _) in *.
  split.
  - split; [|split]; cbn [fst snd].
    + apply mask_length. exact RL.
    + rewrite mask_map. apply ss_filter. exact RS.
    + rewrite mask_map. apply Forall_forall. intros t Ht. apply filter_In in Ht as [Ht Hle].
      rewrite Forall_forall in RF. specialize (RF t Ht). simpl in RF. apply Z.leb_le in Hle. lia.
  - intros t e. unfold has_event at 1. cbn [fst snd].
    rewrite mask_combine by (try exact RL; now rewrite map_length).
    rewrite mask_map_pairs by exact RL. rewrite filter_In. cbn [fst]. rewrite Z.leb_le, RI.
    assert (CN : forall i : nat, (i < 0 + n)%nat <-> Z.of_nat i * c < end_ - start).
    { intro i. pose proof (ceil_div_spec (end_ - start) c Hc (Z.of_nat i)) as CS. unfold n. split; intro H; lia. }
    split.
    + intros [(i & t' & H1 & H2 & H3) H4]. split; [assumption|]. exists (Z.of_nat i), t'.
      split; [lia|]. split; [apply CN; lia|]. split; assumption.
    + intros (H4 & i & t' & H0 & H1 & H2 & H3). split; [|assumption]. exists (Z.to_nat i), t'.
      rewrite Z2Nat.id by assumption. split; [|split; assumption].
      split; [lia|]. apply CN. rewrite Z2Nat.id by assumption. assumption.
Qed.

(** Against a truly periodic set of events, nothing is lost or invented. *)
Lemma repeat_periodic_lemma c start end_ (P : Z -> Z -> Prop) : 0 < c -> c < end_ - start ->
  (forall t e, P t e <-> P (t + c) e) ->
  (forall t e, has_event (find_events 0%nat start (start + c)) t e <-> start <= t <= start + c /\ P t e) ->
  forall t e, has_event (repeat_events find_events c start end_) t e <-> start <= t <= end_ /\ P t e.
Proof.
  intros Hc Hse PP HB t e. destruct (repeat_lemma c start end_ Hc ltac:(lia)) as [_ RL]. rewrite RL. clear RL.
  assert (PN : forall (n : nat) t, P t e <-> P (t + Z.of_nat n * c) e).
  { induction n as [|n IH]; intro u; [now replace (u + Z.of_nat 0 * c) with u by lia|].
    rewrite IH, PP. now replace (u + Z.of_nat n * c + c) with (u + Z.of_nat (S n) * c) by lia. }
  split.
  - intros (H1 & i & t' & H2 & H3 & H4 & ->). apply HB in H4 as [H5 H6]. split; [nia|].
    rewrite <- (Z2Nat.id i H2). now apply PN.
  - intros [H1 H2]. split; [lia|].
    destruct (Z.eq_dec t start) as [->|Hne].
    + exists 0, start. split; [lia|]. split; [lia|]. split; [apply HB; split; [lia|assumption]|lia].
    + (* t in (start + i c, start + (i+1) c] *)
      set (i := (t - start - 1) / c).
      pose proof (Z.div_mod (t - start - 1) c ltac:(lia)) as D. fold i in D.
      pose proof (Z.mod_pos_bound (t - start - 1) c Hc) as M.
      assert (0 <= i) by (apply Z.div_pos; lia).
      exists i, (t - i * c). split; [assumption|]. split; [lia|]. split; [|lia].
      apply HB. split; [lia|]. apply (PN (Z.to_nat i)). rewrite Z2Nat.id by assumption.
      now replace (t - i * c + i * c) with t by lia.
Qed.

(** Dispatch of get_observation_events. *)
Lemma events_multi_lemma argsort es try_repeat cycle start end_ ts is :
  is_argsort argsort -> (1 < length es)%nat -> StronglySorted Z.le es -> start <= end_ ->
  partition_by_tle_index argsort es start end_ = (ts, is) ->
  event_table start end_ (get_observation_events find_events argsort es try_repeat cycle start end_)
  /\ forall t e, has_event (get_observation_events find_events argsort es try_repeat cycle start end_) t e <->
       exists k i a b, nth_error ts k = Some a /\ nth_error ts (S k) = Some b /\ nth_error is k = Some i
         /\ has_event (find_events i a b) t e.
Proof.
  intros HA L HS Hse E. unfold get_observation_events.
  destruct (Nat.ltb_spec 1 (length es)) as [_|L']; [|lia]. rewrite E.
  assert (NE : es <> []) by (intros ->; simpl in L; lia).
  destruct (partition_lemma argsort es start end_ ts is HA NE HS Hse E) as ((ms & _ & Ets) & SS & LL & _).
  apply multi_lemma; auto.
  - now rewrite Ets.
  - rewrite Ets. change (start :: ?l ++ [end_]) with ((start :: l) ++ [end_]). now rewrite last_last.
  - rewrite Ets. constructor; [assumption|]. apply Forall_app. split; [|constructor; [lia|constructor]].
    apply Forall_forall. intros m Hm. apply filter_In in Hm as [_ Hm]. apply andb_true_iff in Hm as [_ Hm].
    apply Z.ltb_lt in Hm. lia.
Qed.
End EventsProofs.

(** ** Packaging *)
Lemma sorted_key_map {A} (key : A -> Z) l : Sorted (fun a b => key a <= key b) l -> Sorted Z.le (map key l).
Proof.
  induction 1 as [|x r Hr IH Hx]; [constructor|]. simpl. constructor; [assumption|].
  destruct Hx; simpl; constructor; assumption.
Qed.

Lemma argsort_ref_lemma : is_argsort (fun es => map snd (sort_by fst (combine es (seq 0 (length es))))).
Proof.
  intro es. destruct (sort_by_is_sort (A := Z * nat) fst (combine es (seq 0 (length es)))) as [P S].
  assert (EQ : forall (l : list Z) n, map snd (combine l (seq n (length l))) = seq n (length l)).
  { induction l as [|x l IH]; intro n; [reflexivity|]. simpl. f_equal. apply IH. }
  split.
  - rewrite <- (EQ es 0%nat) at 2. apply Permutation_map. exact P.
  - rewrite map_map.
    assert (EM : map (fun p => nth (snd p) es 0) (sort_by fst (combine es (seq 0 (length es))))
       = map fst (sort_by fst (combine es (seq 0 (length es))))).
    { apply map_ext_in. intros [x k] Hin. apply (Permutation_in _ P) in Hin. simpl.
      assert (G : forall (l : list Z) n, In (x, k) (combine l (seq n (length l))) -> (n <= k)%nat /\ nth (k - n) l 0 = x).
      { induction l as [|y l IH]; intros n H; [destruct H|]. destruct H as [[= <- <-]|H].
        - split; [lia|]. now rewrite Nat.sub_diag.
        - destruct (IH (Datatypes.S n) H) as [H1 H2]. split; [lia|]. replace (k - n)%nat with (Datatypes.S (k - Datatypes.S n)) by lia. assumption. }
      destruct (G es 0%nat Hin) as [_ E]. now rewrite Nat.sub_0_r in E. }
    rewrite EM. apply sorted_key_map. apply StronglySorted_Sorted. exact S.
Qed.

Lemma closest_one_lemma es t : es <> [] -> StronglySorted Z.le es ->
  exists i, get_closest_tle_index es (AtOne t) = IOne i /\ nearest es t i.
Proof. intros. exists (closest es t). split; [reflexivity|]. now apply closest_nearest. Qed.
Lemma closest_list_lemma es ts : es <> [] -> StronglySorted Z.le es ->
  exists is, get_closest_tle_index es (AtList ts) = IList is /\ Forall2 (nearest es) ts is
    /\ Forall2 (fun t i => get_closest_tle_index es (AtOne t) = IOne i) ts is.
Proof.
  intros. exists (map (closest es) ts). split; [reflexivity|].
  split; induction ts; simpl; constructor; auto. now apply closest_nearest.
Qed.
Lemma track_closest_lemma es tr cyc ts : (1 < length es)%nat -> StronglySorted Z.le es ->
  Forall2 (fun t p => snd p = t /\ nearest es t (fst p)) ts (orbit_track es tr cyc ts).
Proof.
  intros L HS. unfold orbit_track. destruct (Nat.ltb_spec 1 (length es)); [|lia].
  assert (es <> []) by (intros ->; simpl in L; lia).
  induction ts; simpl; constructor; auto. split; [reflexivity|]. now apply closest_nearest.
Qed.
Lemma track_fold_lemma epoch c ts : 0 < c ->
  Forall2 (fun t p => let u := snd p in
      fst p = 0%nat
      /\ Z.abs (u - epoch) < c
      /\ (epoch <= t -> epoch <= u) /\ (t <= epoch -> u <= epoch)
      /\ (exists k, 0 <= k /\ t - u = Z.sgn (t - epoch) * (k * c))
      /\ (Z.abs (t - epoch) < c -> u = t))
    ts (orbit_track [epoch] true (Some c) ts).
Proof.
  intro Hc. unfold orbit_track. simpl. induction ts as [|t ts IH]; simpl; constructor; auto.
  split; [reflexivity|]. now apply fold_lemma.
Qed.
Lemma track_plain_lemma epoch tr cyc ts : tr = false \/ cyc = None ->
  orbit_track [epoch] tr cyc ts = map (fun t => (0%nat, t)) ts.
Proof. unfold orbit_track. simpl. intros [->| ->]; [reflexivity|]. now destruct tr. Qed.

Lemma partition_refuted : exists argsort es start end_ ts is k t i e e',
  is_argsort argsort /\ StronglySorted Z.lt es /\ start < end_
  /\ partition_by_tle_index argsort es start end_ = (ts, is)
  /\ nth k ts 0 < t < nth (S k) ts 0 /\ nth_error is k = Some i /\ nth_error es i = Some e
  /\ In e' es /\ Z.abs (t - e') < Z.abs (t - e).
Proof.
  exists (fun es => map snd (sort_by fst (combine es (seq 0 (length es))))), [0; 100], (-10), 200,
    [-10; 50; 200], [0; 0; 1]%nat, 1%nat, 120, 0%nat, 0, 100.
  split; [apply argsort_ref_lemma|]. split; [repeat constructor|]. split; [lia|].
  split; [vm_compute; reflexivity|]. simpl. repeat split; auto; lia.
Qed.

Lemma history_refuted : exists cfg find epoch l,
  (forall el d c, In c (find el d) -> epoch < c_time c)
  /\ calls cfg find epoch None l <> map (fun a => snd (get_repeat_cycle cfg find epoch None a)) l.
Proof.
  exists (mk_rc (mk_search 100 (1#10) 5 1000) true),
    (fun el d => filter (fun c => c_time c <? d) [mk_cand 30 50 (1#20)]), 0,
    [mk_args None None None (Some 15) None; mk_args None None None None None].
  split; [|vm_compute; discriminate].
  intros el d c H. apply filter_In in H as [[<-|[]] _]; simpl; lia.
Qed.
Lemma calls_same_lemma cfg find epoch s l :
  Forall (fun a => effective cfg a = s) l ->
  calls cfg find epoch None l = map (fun a => snd (get_repeat_cycle cfg find epoch None a)) l.
Proof. apply calls_same_args. now left. Qed.

Lemma events_repeat_lemma find_events argsort epoch c start end_ :
  (forall i a b, a <= b -> event_table a b (find_events i a b)) -> 0 < c -> c < end_ - start ->
  let out := get_observation_events find_events argsort [epoch] true (Some c) start end_ in
  event_table start end_ out
  /\ forall t e, has_event out t e <->
       t <= end_ /\ exists i t', 0 <= i /\ i * c < end_ - start
          /\ has_event (find_events 0%nat start (start + c)) t' e /\ t = t' + i * c.
Proof.
  intros FE Hc Hse. cbv zeta. unfold get_observation_events. cbn [length Nat.ltb Nat.leb].
  destruct (Z.ltb_spec c (end_ - start)); [|lia]. apply repeat_lemma; auto; lia.
Qed.
Lemma events_periodic_lemma find_events argsort epoch c start end_ (P : Z -> Z -> Prop) :
  (forall i a b, a <= b -> event_table a b (find_events i a b)) -> 0 < c -> c < end_ - start ->
  (forall t e, P t e <-> P (t + c) e) ->
  (forall t e, has_event (find_events 0%nat start (start + c)) t e <-> start <= t <= start + c /\ P t e) ->
  forall t e, has_event (get_observation_events find_events argsort [epoch] true (Some c) start end_) t e
     <-> start <= t <= end_ /\ P t e.
Proof.
  intros FE Hc Hse PP HB. unfold get_observation_events. cbn [length Nat.ltb Nat.leb].
  destruct (Z.ltb_spec c (end_ - start)); [|lia]. apply repeat_periodic_lemma; auto.
Qed.
Lemma events_plain_lemma find_events argsort epoch tr cyc start end_ :
  (tr = false \/ cyc = None \/ exists c, cyc = Some c /\ end_ - start <= c) ->
  get_observation_events find_events argsort [epoch] tr cyc start end_ = find_events 0%nat start end_.
Proof.
  unfold get_observation_events. cbn [length Nat.ltb Nat.leb].
  intros [->|[->|(c & -> & H)]]; [reflexivity|now destruct tr|]. destruct tr; [|reflexivity].
  destruct (Z.ltb_spec c (end_ - start)); [lia|reflexivity].
Qed.

Lemma c12_oracle_lemma : forall (i : nat) a b, a <= b -> event_table a b
  (let l := filter (fun p => (a <=? fst p) && (fst p <=? b))
    (flat_map (fun k => [(10 + 50 * Z.of_nat k, 0); (20 + 50 * Z.of_nat k, 1); (30 + 50 * Z.of_nat k, 2)]) (seq 0 9)) in
  (map fst l, map snd l)).
Proof.
  intros _ a b _. cbv zeta. set (l := flat_map _ _).
  assert (S : StronglySorted Z.le (map fst l)) by (cbv; repeat constructor; discriminate).
  clearbody l. split; [|split]; cbn [fst snd].
  - now rewrite !map_length.
  - induction l as [|p l IH]; [constructor|]. simpl in S. inversion S as [|? ? S1 S2]; subst.
    simpl. destruct (_ && _); [|auto]. simpl. constructor; [auto|].
    rewrite Forall_map in *. apply Forall_forall. intros x Hx. apply filter_In in Hx as [Hx _].
    rewrite Forall_forall in S2. auto.
  - rewrite Forall_map. apply Forall_forall. intros x Hx. apply filter_In in Hx as [_ Hx].
    apply andb_true_iff in Hx as [H1 H2]. apply Z.leb_le in H1, H2. lia.
Qed.

Lemma stale_epochs_refuted : exists (decode : list Z -> list Z) v l1 w t,
  nth 2 (run_actions decode (mk_orbit v None) (l1 ++ [Assign w; Query (AtOne t)])) None
  <> Some (get_closest_tle_index (decode w) (AtOne t)).
Proof. exists (fun l => l), [0; 100], [Query (AtOne 0)], [90; 300], 90. vm_compute. discriminate. Qed.
Lemma unassigned_lemma (T : Type) (decode : T -> list Z) v l :
  Forall (fun x => match x with Assign _ => False | Query _ => True end) l ->
  run_actions decode (mk_orbit v None) l
  = map (fun x => match x with Query a => Some (get_closest_tle_index (decode v) a) | Assign _ => None end) l.
Proof. apply run_no_assign. now left. Qed.
