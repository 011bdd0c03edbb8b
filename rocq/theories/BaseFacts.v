(** Facts about the shared primitives. *)
From Coq Require Import ZArith List Bool Sorting.Permutation Sorting.Sorted Lia.
From Verif Require Import Base.
Import ListNotations.

Lemma insert_by_perm {A} (key : A -> Z) x l :
  Permutation (insert_by key x l) (x :: l).
Proof.
  induction l as [|y r IH]; simpl; [reflexivity|].
  destruct (key x <=? key y)%Z; [reflexivity|].
  rewrite IH. apply perm_swap.
Qed.

Lemma sort_by_perm {A} (key : A -> Z) l : Permutation (sort_by key l) l.
Proof.
  induction l as [|x r IH]; simpl; [reflexivity|].
  rewrite insert_by_perm. now constructor.
Qed.

Lemma insert_by_sorted {A} (key : A -> Z) x l :
  StronglySorted (key_le key) l -> StronglySorted (key_le key) (insert_by key x l).
Proof.
  induction 1 as [|y r Hr IH Hy]; simpl.
  - repeat constructor.
  - destruct (Z.leb_spec (key x) (key y)).
    + constructor; [constructor; assumption|].
      constructor; [exact H|].
      eapply Forall_impl; [|exact Hy]. unfold key_le; intros; simpl in *; lia.
    + constructor; [exact IH|].
      apply Forall_forall. intros z Hz.
      apply (Permutation_in _ (insert_by_perm key x r)) in Hz.
      destruct Hz as [<-|Hz]; [unfold key_le; lia|].
      rewrite Forall_forall in Hy. auto.
Qed.

Lemma sort_by_sorted {A} (key : A -> Z) l : StronglySorted (key_le key) (sort_by key l).
Proof.
  induction l; simpl; [constructor|]. now apply insert_by_sorted.
Qed.

Lemma sort_by_is_sort {A} (key : A -> Z) : is_sort key (sort_by key).
Proof. intro l; split; [apply sort_by_perm|apply sort_by_sorted]. Qed.

(** ** Group keys *)
Lemma insert_key_in k l x : In x (insert_key k l) <-> x = k \/ In x l.
Proof.
  induction l as [|y r IH]; simpl; [intuition|].
  destruct (Z.ltb_spec k y); [simpl; intuition|].
  destruct (Z.eqb_spec k y).
  - subst; simpl; intuition.
  - simpl; rewrite IH; intuition.
Qed.

Lemma insert_key_sorted k l :
  StronglySorted Z.lt l -> StronglySorted Z.lt (insert_key k l).
Proof.
  induction 1 as [|y r Hr IH Hy]; simpl; [repeat constructor|].
  destruct (Z.ltb_spec k y).
  - constructor; [constructor; assumption|].
    constructor; [assumption|].
    eapply Forall_impl; [|exact Hy]; simpl; intros; lia.
  - destruct (Z.eqb_spec k y); [constructor; assumption|].
    constructor; [assumption|].
    apply Forall_forall; intros z Hz.
    apply insert_key_in in Hz as [->|Hz]; [lia|].
    rewrite Forall_forall in Hy; auto.
Qed.

Lemma group_keys_in {A} (key : A -> Z) l k :
  In k (group_keys key l) <-> exists x, In x l /\ key x = k.
Proof.
  induction l as [|x r IH]; simpl.
  - split; [tauto|]. intros [x [[] _]].
  - rewrite insert_key_in, IH. split.
    + intros [->|[y [Hy <-]]]; eauto.
    + intros [y [[->|Hy] <-]]; eauto.
Qed.

Lemma group_keys_sorted {A} (key : A -> Z) l : StronglySorted Z.lt (group_keys key l).
Proof. induction l; simpl; [constructor|]. now apply insert_key_sorted. Qed.

Lemma sorted_lt_nodup l : StronglySorted Z.lt l -> NoDup l.
Proof.
  induction 1 as [|y r Hr IH Hy]; constructor; auto.
  intro Hin. rewrite Forall_forall in Hy. specialize (Hy _ Hin). lia.
Qed.

Lemma sorted_lt_ext l l' :
  StronglySorted Z.lt l -> StronglySorted Z.lt l' ->
  (forall x, In x l <-> In x l') -> l = l'.
Proof.
  intros H; revert l'. induction H as [|x r Hr IH Hx]; intros l' H' Hin.
  - destruct l' as [|y r']; [reflexivity|]. exfalso. apply (Hin y). now left.
  - destruct l' as [|y r'].
    + exfalso. apply (Hin x). now left.
    + inversion H' as [|? ? Hr' Hy]; subst.
      rewrite Forall_forall in Hx, Hy.
      assert (x = y).
      { destruct (proj1 (Hin x) (or_introl eq_refl)) as [E|E]; [auto|].
        destruct (proj2 (Hin y) (or_introl eq_refl)) as [E'|E']; [auto|].
        specialize (Hx _ E'). specialize (Hy _ E). lia. }
      subst y. f_equal. apply IH; [assumption|].
      intro z. split; intro Hz.
      * destruct (proj1 (Hin z) (or_intror Hz)) as [E|E]; [|assumption].
        subst z. specialize (Hx _ Hz). lia.
      * destruct (proj2 (Hin z) (or_intror Hz)) as [E|E]; [|assumption].
        subst z. specialize (Hy _ Hz). lia.
Qed.

Lemma group_keys_perm {A} (key : A -> Z) l l' :
  Permutation l l' -> group_keys key l = group_keys key l'.
Proof.
  intro P. apply sorted_lt_ext; try apply group_keys_sorted.
  intro k. rewrite !group_keys_in.
  split; intros [x [Hx E]]; exists x; split; auto;
    [eapply Permutation_in; eauto | eapply Permutation_in; [symmetry|]; eauto].
Qed.

Lemma filter_perm {A} (f : A -> bool) l l' :
  Permutation l l' -> Permutation (filter f l) (filter f l').
Proof.
  induction 1; simpl.
  - constructor.
  - destruct (f x); auto.
  - destruct (f x), (f y); try reflexivity. apply perm_swap.
  - etransitivity; eassumption.
Qed.

Lemma group_rows_in {A} (key : A -> Z) k l x :
  In x (group_rows key k l) <-> In x l /\ key x = k.
Proof. unfold group_rows. rewrite filter_In, Z.eqb_eq. tauto. Qed.

Lemma group_rows_nonempty {A} (key : A -> Z) k l :
  In k (group_keys key l) -> group_rows key k l <> [].
Proof.
  intros H. apply group_keys_in in H as [x [Hx E]]. intro N.
  assert (In x (group_rows key k l)) by (apply group_rows_in; auto).
  rewrite N in H. destruct H.
Qed.

Lemma partition_perm {A} (f : A -> bool) l :
  Permutation (filter f l ++ filter (fun x => negb (f x)) l) l.
Proof.
  induction l as [|x r IH]; simpl; [constructor|].
  destruct (f x); simpl.
  - now constructor.
  - rewrite <- Permutation_middle. now constructor.
Qed.

(** The groups of a groupby are a partition of the rows. *)
Lemma groups_partition_gen {A} (key : A -> Z) ks : forall l,
  NoDup ks -> (forall x, In x l -> In (key x) ks) ->
  Permutation (concat (map (fun k => group_rows key k l) ks)) l.
Proof.
  induction ks as [|k ks IH]; intros l ND H; simpl.
  - destruct l; [constructor|]. exfalso; apply (H a); now left.
  - inversion ND; subst.
    set (l2 := filter (fun x => negb (key x =? k)%Z) l).
    assert (Hm : map (fun k0 => group_rows key k0 l) ks
               = map (fun k0 => group_rows key k0 l2) ks).
    { apply map_ext_in. intros k0 Hk0. unfold group_rows, l2.
      clear -Hk0 H2. induction l as [|x r IHr]; simpl; [reflexivity|].
      destruct (Z.eqb_spec (key x) k); simpl.
      - destruct (Z.eqb_spec (key x) k0); [|assumption].
        subst. contradiction.
      - destruct (Z.eqb_spec (key x) k0); [f_equal|]; assumption. }
    rewrite Hm, IH.
    + apply partition_perm.
    + assumption.
    + intros x Hx. apply filter_In in Hx as [Hx E].
      cbv beta in E. destruct (H _ Hx) as [E2|]; [|assumption].
      rewrite <- E2, Z.eqb_refl in E. discriminate.
Qed.

Lemma group_by_partition {A} (key : A -> Z) l : Permutation (concat (group_by key l)) l.
Proof.
  apply groups_partition_gen.
  - apply sorted_lt_nodup, group_keys_sorted.
  - intros x Hx. apply group_keys_in. eauto.
Qed.

(** ** [mapM] *)
Lemma mapM_ok {A B} (f : A -> pyres B) l ys :
  mapM f l = Ok ys <-> Forall2 (fun x y => f x = Ok y) l ys.
Proof.
  revert ys. induction l as [|x r IH]; intros ys; simpl.
  - split; [intros [= <-]; constructor|inversion 1; reflexivity].
  - destruct (f x) as [y|e] eqn:E; simpl.
    + destruct (mapM f r) as [zs|e] eqn:E2; simpl.
      * split.
        { intros [= <-]. constructor; [assumption|]. now apply IH. }
        { inversion 1; subst. rewrite E in H2; injection H2 as ->.
          apply IH in H4. injection H4 as ->. reflexivity. }
      * split; [discriminate|]. inversion 1; subst.
        apply IH in H4. discriminate.
    + split; [discriminate|]. inversion 1; subst. congruence.
Qed.

Lemma StronglySorted_app {A} (R : A -> A -> Prop) l1 l2 :
  StronglySorted R l1 -> StronglySorted R l2 ->
  (forall x y, In x l1 -> In y l2 -> R x y) -> StronglySorted R (l1 ++ l2).
Proof.
  induction 1 as [|x r Hr IH Hx]; simpl; intros H2 H; [assumption|].
  constructor.
  - apply IH; auto.
  - apply Forall_app; split; [assumption|]. apply Forall_forall; auto.
Qed.

Lemma StronglySorted_app_inv {A} (R : A -> A -> Prop) l1 l2 :
  StronglySorted R (l1 ++ l2) ->
  StronglySorted R l1 /\ StronglySorted R l2 /\
  (forall x y, In x l1 -> In y l2 -> R x y).
Proof.
  induction l1 as [|x r IH]; simpl; intro H.
  - repeat split; [constructor|assumption|intros ? ? []].
  - inversion H; subst. destruct (IH H2) as [Ha [Hb Hc]].
    apply Forall_app in H3 as [H3 H4]. rewrite Forall_forall in H4.
    repeat split; [constructor; auto|assumption|].
    intros a b [<-|Hin] Hb'; auto.
Qed.

Lemma StronglySorted_filter {A} (R : A -> A -> Prop) f l :
  StronglySorted R l -> StronglySorted R (filter f l).
Proof.
  induction 1 as [|x r Hr IH Hx]; simpl; [constructor|].
  destruct (f x); [|assumption]. constructor; [assumption|].
  rewrite Forall_forall in Hx |- *. intros y Hy. apply filter_In in Hy as [Hy _]. auto.
Qed.
