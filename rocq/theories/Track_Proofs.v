(** Proofs about orbit tracks and their grouping. *)
From Coq Require Import Reals ZArith List Bool Lra Lia Sorting.Permutation Sorting.Sorted.
From Verif Require Import Base BaseFacts RBase RFacts Instr_Model Instr_Spec Geom_Model Poly_Model Poly_Spec Track_Model Track_Spec.
Import ListNotations.
Local Open Scope Z_scope.

Lemma py_index_ok {A} (l : list A) idx x : picks l idx x -> py_index l idx = Ok x.
Proof.
  intros (n & N & E). assert (B : (n < length l)%nat) by (apply nth_error_Some; congruence). unfold py_index.
  destruct E as [-> | ->].
  - destruct (Z.ltb_spec (Z.of_nat n) 0); [lia|]. destruct (Z.ltb_spec (Z.of_nat n) 0); [lia|]. now rewrite Nat2Z.id, N.
  - destruct (Z.ltb_spec (Z.of_nat n - Z.of_nat (length l)) 0); [|lia]. replace (Z.of_nat n - Z.of_nat (length l) + Z.of_nat (length l)) with (Z.of_nat n) by lia.
    destruct (Z.ltb_spec (Z.of_nat n) 0); [lia|]. now rewrite Nat2Z.id, N.
Qed.
Lemma py_index_bad {A} (l : list A) idx : idx < - Z.of_nat (length l) \/ Z.of_nat (length l) <= idx -> py_index l idx = Raise IndexError.
Proof.
  intro H. unfold py_index. destruct H as [H|H].
  - destruct (Z.ltb_spec idx 0); [|lia]. destruct (Z.ltb_spec (idx + Z.of_nat (length l)) 0); [reflexivity|lia].
  - destruct (Z.ltb_spec idx 0); [lia|]. destruct (Z.ltb_spec idx 0); [lia|].
    assert (E : nth_error l (Z.to_nat idx) = None) by (apply nth_error_None; lia). now rewrite E.
Qed.

(** *** Track identifiers *)
Lemma track_ids_length prev acc l : length (track_ids prev acc l) = length l.
Proof. revert prev acc. induction l as [|v l IH]; intros; cbn; [reflexivity|]. now rewrite IH. Qed.
Lemma track_ids_next : forall l prev acc i v w a, nth_error l i = Some v -> nth_error l (S i) = Some w ->
  nth_error (track_ids prev acc l) i = Some a -> nth_error (track_ids prev acc l) (S i) = Some (if Bool.eqb w v then a else a + 1).
Proof.
  induction l as [|x l IH]; intros prev acc i v w a V W A; [destruct i; discriminate|]. destruct i as [|i].
  - cbn in V. injection V as ->. cbn in W. destruct l as [|y l]; [discriminate|]. injection W as ->. cbn in A |- *. injection A as <-. reflexivity.
  - cbn [nth_error] in V, W. cbn [track_ids nth_error] in A |- *. eapply IH; eassumption.
Qed.
Lemma nth_some {A} (l : list A) i : (i < length l)%nat -> exists x, nth_error l i = Some x.
Proof. intro H. destruct (nth_error l i) eqn:E; [eauto|]. apply nth_error_None in E. lia. Qed.
Lemma nth_lt {A} (l : list A) i x : nth_error l i = Some x -> (i < length l)%nat.
Proof. intro H. apply nth_error_Some. congruence. Qed.
Lemma track_ids_span : forall l d i a b, nth_error (track_ids None 0 l) i = Some a -> nth_error (track_ids None 0 l) (i + d) = Some b ->
  nth_error l i = Some true ->
  a <= b /\ (a = b <-> forall k v, (i <= k <= i + d)%nat -> nth_error l k = Some v -> v = true).
Proof.
  intros l d. induction d as [|d IH]; intros i a b A B T.
  - rewrite Nat.add_0_r in B. assert (a = b) by congruence. subst. split; [lia|]. split; [|reflexivity]. intros _ k v K V. assert (k = i) by lia. subst. congruence.
  - assert (L : (i + S d < length l)%nat) by (rewrite <- (track_ids_length None 0 l); eapply nth_lt; exact B).
    destruct (nth_some (track_ids None 0 l) (i + d)) as [c C]; [rewrite track_ids_length; lia|].
    destruct (nth_some l (i + d)) as [v V]; [lia|]. destruct (nth_some l (i + S d)) as [w W]; [lia|].
    destruct (IH i a c A C T) as [LE EQ]. replace (i + S d)%nat with (S (i + d)) in * by lia.
    rewrite (track_ids_next l None 0 (i + d) v w c V W C) in B. injection B as <-. split; [destruct (Bool.eqb w v); lia|]. split.
    + intro E. assert (E1 : a = c) by (destruct (Bool.eqb w v); lia). assert (E2 : Bool.eqb w v = true) by (destruct (Bool.eqb w v); [reflexivity|lia]).
      apply eqb_prop in E2. subst w. intros k u K U. destruct (Nat.eq_dec k (S (i + d))) as [-> | N].
      * assert (u = v) by congruence. subst. eapply (proj1 EQ E1); [|exact V]. lia.
      * eapply (proj1 EQ E1); [|exact U]. lia.
    + intro H. assert (v = true) by (eapply H; [|exact V]; lia). assert (w = true) by (eapply H; [|exact W]; lia). subst. cbn. apply EQ. intros k u K. apply H. lia.
Qed.

(** *** Groups *)
Definition key2 {A} (a b : Z) (x : Z * Z * A) : bool := (fst (fst x) =? a) && (snd (fst x) =? b).
Lemma filter_filter {A} (f g : A -> bool) l : filter f (filter g l) = filter (fun x => g x && f x) l.
Proof. induction l as [|x l IH]; cbn; [reflexivity|]. destruct (g x); cbn; [destruct (f x); cbn; now rewrite IH|exact IH]. Qed.
Lemma group2_in {A} (l : list (Z * Z * A)) g : In g (group2 l) <-> exists a b, g = map snd (filter (key2 a b) l) /\ filter (key2 a b) l <> [].
Proof.
  unfold group2. rewrite in_flat_map. split.
  - intros (h & H & G). unfold group_by in H. apply in_map_iff in H. destruct H as (a & <- & K). apply in_map_iff in G. destruct G as (h2 & <- & G).
    unfold group_by in G. apply in_map_iff in G. destruct G as (b & <- & K2). exists a, b. unfold group_rows. rewrite filter_filter. split; [reflexivity|].
    apply group_keys_in in K2. destruct K2 as (x & X & E). unfold group_rows in X. apply filter_In in X. destruct X as [X E2].
    intro N. assert (I : In x (filter (key2 a b) l)) by (apply filter_In; split; [exact X|unfold key2; rewrite E2, <- E; now rewrite Z.eqb_refl]). rewrite N in I. destruct I.
  - intros (a & b & -> & N). destruct (filter (key2 a b) l) as [|x r] eqn:F; [congruence|]. assert (X : In x (filter (key2 a b) l)) by (rewrite F; now left).
    apply filter_In in X. destruct X as [X E]. unfold key2 in E. apply andb_true_iff in E. destruct E as [E1 E2]. rewrite Z.eqb_eq in E1, E2.
    exists (group_rows (fun x => fst (fst x)) a l). split.
    + unfold group_by. apply in_map_iff. exists a. split; [reflexivity|]. apply group_keys_in. exists x. auto.
    + apply in_map_iff. exists (filter (key2 a b) l). rewrite F. split; [reflexivity|]. rewrite <- F. unfold group_by. apply in_map_iff. exists b. split.
      * unfold group_rows. rewrite filter_filter. reflexivity.
      * apply group_keys_in. exists x. split; [|exact E2]. apply filter_In. split; [exact X|]. now apply Z.eqb_eq.
Qed.
Lemma concat_map_map {A B} (f : A -> B) l : concat (map (map f) l) = map f (concat l).
Proof. induction l as [|x l IH]; cbn; [reflexivity|]. now rewrite map_app, IH. Qed.
Lemma concat_flat_map {A B} (f : A -> list (list B)) l : concat (flat_map f l) = concat (map (fun x => concat (f x)) l).
Proof. induction l as [|x l IH]; cbn; [reflexivity|]. now rewrite concat_app, IH. Qed.
Lemma perm_concat_map {A B} (f g : A -> list B) l : (forall x, In x l -> Permutation (f x) (g x)) -> Permutation (concat (map f l)) (concat (map g l)).
Proof. induction l as [|x l IH]; cbn; intro H; [constructor|]. apply Permutation_app; [apply H; now left|apply IH; intros; apply H; now right]. Qed.
Lemma group2_perm {A} (l : list (Z * Z * A)) : Permutation (concat (group2 l)) (map snd l).
Proof.
  unfold group2. rewrite concat_flat_map. etransitivity.
  - apply (perm_concat_map _ (map snd)). intros g _. rewrite concat_map_map. apply Permutation_map, group_by_partition.
  - rewrite concat_map_map. apply Permutation_map, group_by_partition.
Qed.
(** Renaming of the payload. *)
Definition rename {A B} (f : A -> B) (x : Z * Z * A) : Z * Z * B := (fst x, f (snd x)).
Lemma group_keys_map {A B} (k : B -> Z) (f : A -> B) l : group_keys k (map f l) = group_keys (fun x => k (f x)) l.
Proof. induction l as [|x l IH]; cbn; [reflexivity|]. now rewrite IH. Qed.
Lemma group_by_map {A B} (k : B -> Z) (f : A -> B) l : group_by k (map f l) = map (map f) (group_by (fun x => k (f x)) l).
Proof.
  unfold group_by. rewrite group_keys_map, map_map. apply map_ext. intro a. unfold group_rows. clear. induction l as [|x l IH]; cbn; [reflexivity|].
  destruct (k (f x) =? a); cbn; now rewrite IH.
Qed.
Lemma flat_map_map {A B C} (f : B -> list C) (g : A -> B) l : flat_map f (map g l) = flat_map (fun x => f (g x)) l.
Proof. induction l as [|x l IH]; cbn; [reflexivity|]. now rewrite IH. Qed.
Lemma map_flat_map {A B C} (f : B -> C) (g : A -> list B) l : map f (flat_map g l) = flat_map (fun x => map f (g x)) l.
Proof. induction l as [|x l IH]; cbn; [reflexivity|]. now rewrite map_app, IH. Qed.
Lemma group2_rename {A B} (f : A -> B) l : group2 (map (rename f) l) = map (map f) (group2 l).
Proof.
  unfold group2. rewrite group_by_map, flat_map_map, map_flat_map. cbn [rename fst snd]. apply flat_map_ext. intro g.
  rewrite group_by_map, !map_map. apply map_ext. intro h. rewrite !map_map. reflexivity.
Qed.
(** Order of the groups. *)
Definition lex (a b : Z * Z) : Prop := fst a < fst b \/ (fst a = fst b /\ snd a < snd b).
Lemma StronglySorted_map_in {A B} (f : A -> B) (R : B -> B -> Prop) (S : A -> A -> Prop) l : (forall a b, In a l -> In b l -> S a b -> R (f a) (f b)) -> StronglySorted S l -> StronglySorted R (map f l).
Proof.
  intros H. induction 1 as [|x l SS IH F]; cbn; constructor; [apply IH; intros; apply H; [now right|now right|assumption]|].
  rewrite Forall_forall in *. intros y Y. apply in_map_iff in Y. destruct Y as (z & <- & Z1). apply H; [now left|now right|now apply F].
Qed.
Lemma sorted_flat_map {A B} (f : A -> list B) (R : A -> A -> Prop) (S : B -> B -> Prop) l : StronglySorted R l ->
  (forall a, In a l -> StronglySorted S (f a)) -> (forall a b x y, In a l -> In b l -> R a b -> In x (f a) -> In y (f b) -> S x y) -> StronglySorted S (flat_map f l).
Proof.
  induction 1 as [|a l SS IH F]; cbn; intros H1 H2; [constructor|]. apply StronglySorted_app; [apply H1; now left| |].
  - apply IH; [intros; apply H1; now right|]. intros b c x y IB IC. apply H2; now right.
  - intros x y X Y. apply in_flat_map in Y. destruct Y as (b & IB & Y). rewrite Forall_forall in F. apply (H2 a b); [now left|now right|now apply F|exact X|exact Y].
Qed.
Lemma group2_sorted {A} (key : A -> Z * Z) l : (forall k x, In (k, x) l -> key x = k) ->
  StronglySorted (fun g h => forall i j, In i g -> In j h -> lex (key i) (key j)) (group2 l).
Proof.
  intro K. unfold group2, group_by at 2. rewrite flat_map_map.
  apply (sorted_flat_map _ Z.lt); [apply group_keys_sorted| |].
  - intros a _. unfold group_by. rewrite map_map. eapply StronglySorted_map_in; [|apply group_keys_sorted]. intros b c _ _ LT i j I J.
    apply in_map_iff in I, J. destruct I as ([k1 x] & <- & I), J as ([k2 y] & <- & J). unfold group_rows in I, J. rewrite !filter_In in I, J. cbn in I, J.
    destruct I as [[I I1] I2], J as [[J J1] J2]. rewrite Z.eqb_eq in *. cbn. rewrite (K _ _ I), (K _ _ J). right. lia.
  - intros a b g h _ _ LT G H i j I J. apply in_map_iff in G, H. destruct G as (g' & <- & G), H as (h' & <- & H). apply in_map_iff in I, J.
    destruct I as ([k1 x] & <- & I), J as ([k2 y] & <- & J). unfold group_by in G, H. apply in_map_iff in G, H. destruct G as (c & <- & _), H as (d & <- & _).
    unfold group_rows in I, J. rewrite !filter_In in I, J. cbn in I, J. destruct I as [[I I1] I2], J as [[J J1] J2]. rewrite Z.eqb_eq in *. cbn. rewrite (K _ _ I), (K _ _ J). left. lia.
Qed.

(** *** Indexed rows *)
Definition orbits (t0 period : Z) (rows : list orow) : list Z := map (fun r => (o_time r - t0) / period) rows.
Definition tids (rows : list orow) : list Z := track_ids None 0 (map o_valid rows).
Definition indexed (t0 period : Z) (rows : list orow) : list (Z * Z * nat) :=
  filter (fun x => match nth_error rows (snd x) with Some r => o_valid r | None => false end)
    (combine (combine (orbits t0 period rows) (tids rows)) (seq 0 (length rows))).
Lemma combine_rename {A B K} (f : A -> B) (k : list K) (l : list A) : map (fun x => (fst x, f (snd x))) (combine k l) = combine k (map f l).
Proof. revert l. induction k as [|a k IH]; intros [|x l]; cbn; [reflexivity..|]. now rewrite IH. Qed.
Lemma map_filter_swap {A B} (f : A -> B) (p : B -> bool) l : filter p (map f l) = map f (filter (fun x => p (f x)) l).
Proof. induction l as [|x l IH]; cbn; [reflexivity|]. destruct (p (f x)); cbn; now rewrite IH. Qed.
Lemma seq_rows {A} (l : list A) : map (nth_error l) (seq 0 (length l)) = map Some l.
Proof.
  assert (G : forall m pre : list A, map (nth_error (pre ++ m)) (seq (length pre) (length m)) = map Some m).
  { induction m as [|x m IH]; intro pre; cbn; [reflexivity|]. f_equal.
    - rewrite nth_error_app2, Nat.sub_diag by lia. reflexivity.
    - specialize (IH (pre ++ [x])). rewrite app_length, <- app_assoc in IH. cbn in IH. now rewrite Nat.add_1_r in IH. }
  apply (G l []).
Qed.
Lemma indexed_rows t0 period rows : map (rename (nth_error rows)) (indexed t0 period rows) = map (rename Some) (identify t0 period rows).
Proof.
  unfold indexed, identify. set (K := combine (orbits t0 period rows) (tids rows)).
  assert (E : filter (fun x : Z * Z * option orow => match snd x with Some r => o_valid r | None => false end) (map (rename (nth_error rows)) (combine K (seq 0 (length rows))))
            = filter (fun x : Z * Z * option orow => match snd x with Some r => o_valid r | None => false end) (map (rename Some) (combine K rows))).
  { f_equal. unfold rename. rewrite !combine_rename. now rewrite seq_rows. }
  rewrite !map_filter_swap in E. exact E.
Qed.
Lemma indexed_groups t0 period rows : map (map Some) (line_groups t0 period rows) = map (map (nth_error rows)) (group2 (indexed t0 period rows)).
Proof. unfold line_groups. rewrite <- !group2_rename. now rewrite indexed_rows. Qed.
Lemma combine_nth_in {A B} (l : list A) (m : list B) x y : In (x, y) (combine l m) <-> exists i, nth_error l i = Some x /\ nth_error m i = Some y.
Proof.
  revert m. induction l as [|a l IH]; intros [|b m]; cbn; try (split; [intros []|intros ([|i] & H & G); cbn in *; discriminate]).
  rewrite IH. split.
  - intros [E|(i & H & G)]; [injection E as -> ->; now exists O|now exists (S i)].
  - intros ([|i] & H & G); cbn in *; [left; congruence|right; now exists i].
Qed.
Lemma nth_seq n i j : nth_error (seq 0 n) i = Some j <-> i = j /\ (i < n)%nat.
Proof.
  split.
  - intro H. assert (B : (i < n)%nat) by (rewrite <- (seq_length n 0); eapply nth_lt; exact H). split; [|exact B].
    apply (nth_error_nth _ _ 0%nat) in H. rewrite seq_nth in H by exact B. lia.
  - intros [<- B]. rewrite (nth_error_nth' _ 0%nat) by (rewrite seq_length; exact B). now rewrite seq_nth.
Qed.
Lemma indexed_in t0 period rows a b i : In (a, b, i) (indexed t0 period rows) <->
  exists r, nth_error rows i = Some r /\ o_valid r = true /\ a = (o_time r - t0) / period /\ nth_error (tids rows) i = Some b.
Proof.
  unfold indexed. rewrite filter_In, combine_nth_in. cbn [snd]. split.
  - intros [(k & H & G) V]. apply nth_seq in G. destruct G as [-> B]. destruct (nth_some rows i B) as [r Hr]. rewrite Hr in V. exists r. split; [exact Hr|]. split; [exact V|].
    assert (I : In (a, b) (combine (orbits t0 period rows) (tids rows)) ) by (eapply nth_error_In; exact H).
    clear I. revert H. assert (O : nth_error (orbits t0 period rows) i = Some ((o_time r - t0) / period)) by (unfold orbits; rewrite nth_error_map, Hr; reflexivity).
    assert (G : forall (l m : list Z) j x y, nth_error (combine l m) j = Some (x, y) -> nth_error l j = Some x /\ nth_error m j = Some y).
    { clear. induction l as [|p l IH]; intros [|q m] [|j] x y H; cbn in *; try discriminate; [injection H as -> ->; auto|now apply IH]. }
    intro H. apply G in H. destruct H as [H1 H2]. split; [congruence|exact H2].
  - intros (r & Hr & V & -> & T). rewrite Hr. split; [|exact V]. exists i. split.
    + assert (G : forall (l m : list Z) j x y, nth_error l j = Some x -> nth_error m j = Some y -> nth_error (combine l m) j = Some (x, y)).
      { clear. induction l as [|p l IH]; intros [|q m] [|j] x y H1 H2; cbn in *; try discriminate; [congruence|now apply IH]. }
      apply G; [|exact T]. unfold orbits. rewrite nth_error_map, Hr. reflexivity.
    + apply nth_seq. split; [reflexivity|]. eapply nth_lt; exact Hr.
Qed.
Lemma tids_some rows i : (i < length rows)%nat -> exists b, nth_error (tids rows) i = Some b.
Proof. intro H. apply nth_some. unfold tids. now rewrite track_ids_length, map_length. Qed.
Lemma nth_valid rows i r : nth_error rows i = Some r -> nth_error (map o_valid rows) i = Some (o_valid r).
Proof. intro H. rewrite nth_error_map, H. reflexivity. Qed.
Lemma tids_between rows i j b c : (i <= j)%nat -> nth_error (map o_valid rows) i = Some true -> nth_error (tids rows) i = Some b -> nth_error (tids rows) j = Some c ->
  b <= c /\ (b = c <-> forall k r, (i <= k <= j)%nat -> nth_error rows k = Some r -> o_valid r = true).
Proof.
  intros L V B C. unfold tids in *. replace j with (i + (j - i))%nat in C by lia. destruct (track_ids_span _ _ _ _ _ B C V) as [LE EQ]. split; [exact LE|]. rewrite EQ. split.
  - intros H k r K R0. apply (H k); [lia|]. now apply nth_valid.
  - intros H k v K V0. rewrite nth_error_map in V0. destruct (nth_error rows k) as [r|] eqn:E; [|discriminate]. injection V0 as <-. apply (H k); [lia|exact E].
Qed.
Lemma same_orbit_iff t0 period a b : 0 < period -> ((a - t0) / period = (b - t0) / period <-> same_orbit t0 period a b).
Proof.
  intro P. split.
  - intro E. exists ((a - t0) / period). pose proof (Z.div_mod (a - t0) period ltac:(lia)). pose proof (Z.mod_pos_bound (a - t0) period P).
    pose proof (Z.div_mod (b - t0) period ltac:(lia)). pose proof (Z.mod_pos_bound (b - t0) period P). rewrite <- E in *. lia.
  - intros (k & A & B). transitivity k; [symmetry; apply (Z.div_unique_pos _ _ _ (a - t0 - k * period)); lia|apply (Z.div_unique_pos _ _ _ (b - t0 - k * period)); lia].
Qed.
Lemma earlier_orbit_iff t0 period a b : 0 < period -> (a - t0) / period < (b - t0) / period -> earlier_orbit t0 period a b.
Proof.
  intros P E. exists ((b - t0) / period). pose proof (Z.div_mod (a - t0) period ltac:(lia)). pose proof (Z.mod_pos_bound (a - t0) period P).
  pose proof (Z.div_mod (b - t0) period ltac:(lia)). pose proof (Z.mod_pos_bound (b - t0) period P). split; [nia|lia].
Qed.
Lemma seq_sorted n k : StronglySorted lt (seq k n).
Proof. revert k. induction n as [|n IH]; intro k; cbn; constructor; [apply IH|]. apply Forall_forall. intros x X. apply in_seq in X. lia. Qed.
Lemma combine_sorted {K} (k : list K) n s : StronglySorted lt (map snd (combine k (seq s n))).
Proof.
  revert s n. induction k as [|a k IH]; intros s [|n]; cbn; [constructor..|]. constructor; [apply IH|]. apply Forall_forall. intros x X.
  apply in_map_iff in X. destruct X as ([y z] & <- & X). apply in_combine_r in X. apply in_seq in X. cbn. lia.
Qed.
Lemma sorted_sub {A B} (R : B -> B -> Prop) (f : A -> B) (p : A -> bool) l : StronglySorted R (map f l) -> StronglySorted R (map f (filter p l)).
Proof.
  induction l as [|x l IH]; cbn; intro H; [constructor|]. inversion H as [|? ? H1 H2]; subst. destruct (p x); cbn; [|now apply IH]. constructor; [now apply IH|].
  rewrite Forall_forall in *. intros y Y. apply H2. apply in_map_iff in Y. destruct Y as (z & <- & Y). apply filter_In in Y. apply in_map. tauto.
Qed.
Lemma indexed_sorted t0 period rows : StronglySorted lt (map snd (indexed t0 period rows)).
Proof. unfold indexed. apply sorted_sub, combine_sorted. Qed.
Lemma sorted_nodup l : StronglySorted lt l -> NoDup l.
Proof. induction 1 as [|x l H IH F]; constructor; [|exact IH]. intro I. rewrite Forall_forall in F. specialize (F x I). lia. Qed.

Lemma grouping_lemma : forall t0 period rows, 0 < period -> exists ig : list (list nat),
  map (map Some) (line_groups t0 period rows) = map (map (nth_error rows)) ig
  /\ grouped t0 period rows ig.
Proof.
  intros t0 period rows P. exists (group2 (indexed t0 period rows)). set (L := indexed t0 period rows).
  assert (ND : NoDup (map snd L)) by (apply sorted_nodup, indexed_sorted).
  assert (KEY : forall i r b, nth_error rows i = Some r -> nth_error (tids rows) i = Some b -> o_valid r = true -> In ((o_time r - t0) / period, b, i) L) by (intros i r b R1 B V; apply indexed_in; eauto).
  split; [apply indexed_groups|]. split; [|split; [|split; [|split]]].
  - eapply Permutation_NoDup; [symmetry; apply group2_perm|exact ND].
  - intro i. split.
    + intro I. apply (Permutation_in _ (group2_perm L)) in I. apply in_map_iff in I. destruct I as ([[a b] k] & <- & I). apply indexed_in in I. cbn. destruct I as (r & R1 & V & _). eauto.
    + intros (r & R1 & V). destruct (tids_some rows i) as [b B]; [eapply nth_lt; exact R1|]. eapply Permutation_in; [symmetry; apply group2_perm|]. apply in_map_iff. exists ((o_time r - t0) / period, b, i). auto.
  - intros g i j G I. apply group2_in in G. destruct G as (a & b & -> & _). apply in_map_iff in I. destruct I as ([[a1 b1] k] & E & I). cbn in E. subst k.
    apply filter_In in I. destruct I as [I Q]. unfold key2 in Q. cbn in Q. apply andb_true_iff in Q. destruct Q as [Q1 Q2]. rewrite Z.eqb_eq in Q1, Q2. subst a1 b1.
    apply indexed_in in I. destruct I as (r & R1 & V & A & B). split.
    + intro J. apply in_map_iff in J. destruct J as ([[a2 b2] k] & E & J). cbn in E. subst k. apply filter_In in J. destruct J as [J Q]. unfold key2 in Q. cbn in Q. apply andb_true_iff in Q. destruct Q as [Q1 Q2]. rewrite Z.eqb_eq in Q1, Q2. subst a2 b2.
      apply indexed_in in J. destruct J as (s & S1 & V2 & A2 & B2). exists r, s. split; [exact R1|]. split; [exact S1|]. split; [apply same_orbit_iff; [exact P|congruence]|].
      intros k u K U. destruct (le_ge_dec i j) as [LE|LE].
      * destruct (tids_between rows i j b b LE) as [_ X]; [rewrite (nth_valid _ _ _ R1); now f_equal|exact B|exact B2|]. apply (proj1 X eq_refl k u); [lia|exact U].
      * destruct (tids_between rows j i b b) as [_ X]; [lia|rewrite (nth_valid _ _ _ S1); now f_equal|exact B2|exact B|]. apply (proj1 X eq_refl k u); [lia|exact U].
    + intros (r' & s & R2 & S1 & SO & VB). assert (r' = r) by congruence. subst r'. destruct (tids_some rows j) as [c C]; [eapply nth_lt; exact S1|].
      assert (VS : o_valid s = true) by (apply (VB j s); [lia|exact S1]). apply same_orbit_iff in SO; [|exact P].
      assert (b = c).
      { destruct (le_ge_dec i j) as [LE|LE].
        - destruct (tids_between rows i j b c LE) as [_ X]; [rewrite (nth_valid _ _ _ R1); now f_equal|exact B|exact C|]. apply X. intros k u K. apply VB. lia.
        - destruct (tids_between rows j i c b) as [_ X]; [lia|rewrite (nth_valid _ _ _ S1); now f_equal|exact C|exact B|]. symmetry. apply X. intros k u K. apply VB. lia. }
      subst c. apply in_map_iff. exists (a, b, j). split; [reflexivity|]. apply filter_In. split; [|unfold key2; cbn; now rewrite !Z.eqb_refl]. subst a. rewrite SO. now apply KEY.
  - intros g G. apply group2_in in G. destruct G as (a & b & -> & N). split; [apply sorted_sub, indexed_sorted|]. intro M. apply map_eq_nil in M. contradiction.
  - set (key := fun i => match nth_error rows i, nth_error (tids rows) i with Some r, Some b => ((o_time r - t0) / period, b) | _, _ => (0, 0) end).
    assert (K : forall k x, In (k, x) L -> key x = k).
    { intros [a b] i I. apply indexed_in in I. destruct I as (r & R1 & _ & -> & B). unfold key. now rewrite R1, B. }
    assert (VALID : forall g i, In g (group2 L) -> In i g -> exists r, nth_error rows i = Some r /\ o_valid r = true).
    { intros g i G I. apply group2_in in G. destruct G as (a & b & -> & _). apply in_map_iff in I. destruct I as ([[a1 b1] k] & E & I). cbn in E. subst k.
      apply filter_In in I. destruct I as [I _]. apply indexed_in in I. destruct I as (r & R1 & V & _). eauto. }
    pose proof (group2_sorted key L K) as SS. revert VALID. induction SS as [|g l SS IH F]; intro VALID; [constructor|]. constructor; [apply IH; intros h i H I; apply (VALID h); [now right|exact I]|].
    rewrite Forall_forall in *. intros h H i j r s I J R1 S1. specialize (F h H i j I J). destruct (VALID g i (or_introl eq_refl) I) as (r' & R2 & V). assert (r' = r) by congruence. subst r'.
    destruct (VALID h j (or_intror H) J) as (s' & S2 & V2). assert (s' = s) by congruence. subst s'.
    destruct (tids_some rows i) as [b B]; [eapply nth_lt; exact R1|]. destruct (tids_some rows j) as [c C]; [eapply nth_lt; exact S1|]. unfold key, lex in F. rewrite R1, S1, B, C in F. cbn in F.
    destruct F as [F|[F1 F2]]; [left; now apply earlier_orbit_iff|]. right. split; [now apply same_orbit_iff|]. destruct (le_lt_dec j i) as [LE|]; [|assumption]. exfalso.
    destruct (tids_between rows j i c b LE) as [X _]; [rewrite (nth_valid _ _ _ S1); now f_equal|exact C|exact B|]. lia.
Qed.
