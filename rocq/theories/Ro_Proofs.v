(** Proofs about radio occultation: the arcs. *)
From Coq Require Import Reals ZArith List Bool Lra Lia Psatz Sorting.Sorted Sorting.Permutation.
From Verif Require Import Base BaseFacts RBase RFacts RTrig RTrigFacts Mog_Model Geom_Spec Instr_Model Instr_Spec Ro_Model Ro_Spec.
Import ListNotations.
Open Scope R_scope.

(** Maximal runs of a boolean sequence before [k], latest first. *)
Fixpoint rr (g : nat -> bool) (k : nat) : list (nat * nat) :=
  match k with
  | O => []
  | S k' => if g k' then match rr g k' with
                        | (i, m) :: r => if (i + m =? k')%nat then (i, S m) :: r else (k', 1%nat) :: (i, m) :: r
                        | [] => [(k', 1%nat)]
                        end
            else rr g k'
  end.
Lemma rr_inv g k :
  StronglySorted (fun a b : nat * nat => (fst b + snd b < fst a)%nat) (rr g k)
  /\ (forall i m, In (i, m) (rr g k) -> (0 < m)%nat /\ (i + m <= k)%nat /\ (forall j, (i <= j < i + m)%nat -> g j = true)
        /\ ((i + m)%nat = k \/ g (i + m)%nat = false) /\ (i = 0%nat \/ g (i - 1)%nat = false))
  /\ (forall j, (j < k)%nat -> g j = true -> exists i m, In (i, m) (rr g k) /\ (i <= j < i + m)%nat).
Proof.
  induction k as [|k (S1 & I1 & C1)]; cbn.
  { split; [constructor|]. split; [intros ? ? []|intros j J; lia]. }
  destruct (g k) eqn:G.
  2:{ split; [exact S1|]. split.
      - intros i m H. destruct (I1 i m H) as (A & B & C & D & E). split; [exact A|]. split; [lia|]. split; [exact C|]. split; [|exact E].
        right. destruct D as [D|D]; [rewrite D; exact G|exact D].
      - intros j J GJ. apply C1; [|exact GJ]. destruct (Nat.eq_dec j k); [congruence|lia]. }
  destruct (rr g k) as [|[i m] r] eqn:R.
  { split; [repeat constructor|]. split.
    - intros i m [H|[]]. inversion H; subst. split; [lia|]. split; [lia|]. split; [intros j J; assert (j = i) by lia; subst; exact G|]. split; [left; lia|].
      destruct i; [now left|right]. cbn. rewrite Nat.sub_0_r. destruct (g i) eqn:GI; [|reflexivity]. destruct (C1 i ltac:(lia) GI) as (a & b & [] & _).
    - intros j J GJ. exists k, 1%nat. split; [now left|]. destruct (Nat.eq_dec j k) as [->|N]; [lia|].
      destruct (C1 j ltac:(lia) GJ) as (a & b & [] & _). }
  destruct (I1 i m (or_introl eq_refl)) as (A & B & C & D & E).
  inversion S1 as [|? ? S2 S3]; subst.
  destruct (Nat.eqb_spec (i + m) k) as [K|K].
  - split; [|split].
    + constructor; [exact S2|]. rewrite Forall_forall in *. intros x X. specialize (S3 x X). cbn in *. lia.
    + intros i' m' [H|H].
      * inversion H; subst. split; [lia|]. split; [lia|]. split; [|split; [left; lia|exact E]].
        intros j J. destruct (Nat.eq_dec j (i' + m)) as [->|N]; [exact G|apply C; lia].
      * destruct (I1 i' m' (or_intror H)) as (A' & B' & C' & D' & E'). split; [exact A'|]. split; [lia|]. split; [exact C'|]. split; [|exact E'].
        right. destruct D' as [D'|D']; [|exact D']. rewrite Forall_forall in S3. specialize (S3 _ H). cbn in S3. lia.
    + intros j J GJ. destruct (Nat.eq_dec j k) as [->|N].
      * exists i, (S m). split; [now left|lia].
      * destruct (C1 j ltac:(lia) GJ) as (a & b & [H|H] & L).
        -- inversion H; subst. exists a, (S b). split; [now left|lia].
        -- exists a, b. split; [now right|exact L].
  - split; [|split].
    + constructor; [exact S1|]. constructor; [cbn; lia|]. rewrite Forall_forall in *. intros x X. specialize (S3 x X). cbn in *. lia.
    + intros i' m' [H|H].
      * inversion H; subst. split; [lia|]. split; [lia|]. split; [intros j J; assert (j = i') by lia; subst; exact G|]. split; [left; lia|].
        right. assert (exists i'', i' = S i'') as [i'' ->] by (exists (i' - 1)%nat; lia). cbn. rewrite Nat.sub_0_r.
        destruct (g i'') eqn:GI; [|reflexivity]. destruct (C1 i'' ltac:(lia) GI) as (a & b & [Q|Q] & L).
        -- inversion Q; subst. destruct D as [D|D]; [lia|]. lia.
        -- rewrite Forall_forall in S3. specialize (S3 _ Q). cbn in S3. lia.
      * destruct (I1 i' m' H) as (A' & B' & C' & D' & E'). split; [exact A'|]. split; [lia|]. split; [exact C'|]. split; [|exact E'].
        right. destruct D' as [D'|D']; [|exact D']. destruct H as [H|H].
        -- inversion H; subst. lia.
        -- rewrite Forall_forall in S3. specialize (S3 _ H). cbn in S3. lia.
    + intros j J GJ. destruct (Nat.eq_dec j k) as [->|N]; [exists k, 1%nat; split; [now left|lia]|].
      destruct (C1 j ltac:(lia) GJ) as (a & b & H & L). exists a, b. split; [now right|exact L].
Qed.

Lemma ss_rev {A} (R : A -> A -> Prop) l : StronglySorted R l -> StronglySorted (fun a b => R b a) (rev l).
Proof.
  induction 1 as [|a l S1 IH F]; cbn; [constructor|].
  assert (forall l1, StronglySorted (fun x y => R y x) l1 -> Forall (R a) l1 -> StronglySorted (fun x y => R y x) (l1 ++ [a])) as K.
  { clear. induction 1 as [|b l1 S1 IH F]; intro G; cbn; [repeat constructor|]. inversion G; subst. constructor; [apply IH; assumption|].
    apply Forall_app. split; [exact F|]. constructor; [assumption|constructor]. }
  apply K; [exact IH|]. apply Forall_rev. exact F.
Qed.

(** The runs of a boolean sequence that is false from [n] on. *)
Lemma rr_maximal g n : (forall j, (n <= j)%nat -> g j = false) ->
  in_order (rev (rr g n)) /\ forall i m, In (i, m) (rev (rr g n)) <-> maximal_run (fun j => g j = true) i m.
Proof.
  intro Hn. destruct (rr_inv g n) as (S1 & I1 & C1). split.
  - unfold in_order. apply (ss_rev _ _ S1).
  - intros i m. rewrite <- in_rev. split.
    + intro H. destruct (I1 i m H) as (A & B & C & D & E). split; [exact A|]. split; [exact C|]. split.
      * destruct D as [D|D]; [rewrite (Hn (i + m)%nat) by lia; discriminate|rewrite D; discriminate].
      * destruct E as [E|E]; [now left|right; rewrite E; discriminate].
    + intros (A & B & C & D). assert (G : g i = true) by (apply B; lia).
      assert (L : (i < n)%nat). { destruct (Nat.lt_ge_cases i n); [assumption|]. rewrite Hn in G by assumption. discriminate. }
      destruct (C1 i L G) as (i' & m' & H & J). destruct (I1 i' m' H) as (A' & B' & C' & D' & E').
      assert (i = i').
      { destruct D as [D|D]; [lia|]. destruct (Nat.eq_dec i i'); [assumption|]. exfalso. apply D. apply C'. lia. }
      subst i'. destruct (Nat.lt_trichotomy m m') as [X|[X|X]].
      * exfalso. apply C. apply C'. lia.
      * subst. exact H.
      * exfalso. assert (g (i + m')%nat = true) by (apply B; lia). destruct D' as [D'|D']; [|congruence].
        rewrite Hn in H0 by lia. discriminate.
Qed.

Section Loop.
Variables (name : Z) (lo hi : R) (cols : list column) (dflt : column).
Let pt (j : nat) := c_point (nth j cols dflt).
Let valid (j : nat) := nth j (map c_valid cols) false.
Let inr (j : nat) := let h := g_elev (op_tp (pt j)) in Rltb lo h && Rltb h hi.
Definition good_b (j : nat) : bool := nth j (map c_valid cols) false && (let h := g_elev (op_tp (c_point (nth j cols dflt))) in Rltb lo h && Rltb h hi).
Definition arc_of (r : nat * nat) : arc :=
  mk_arc name (Rltb (-90) (op_pitch (c_point (nth (fst r) cols dflt)))) (map (fun j => c_point (nth j cols dflt)) (seq (fst r) (snd r))).

Lemma loop_inv k : (k <= length cols)%nat ->
  let s := fold_left (loop_body name lo hi cols dflt) (filter (fun j => nth j (map c_valid cols) false) (seq 0 k)) ([], None) in
  fst s ++ match snd s with Some a => [a] | None => [] end = map arc_of (rev (rr good_b k))
  /\ match snd s with
     | Some a => exists i m r, rr good_b k = (i, m) :: r /\ (i + m)%nat = k /\ a = arc_of (i, m) /\ valid k = true
     | None => forall i m r, rr good_b k = (i, m) :: r -> (i + m)%nat = k -> valid k = false
     end.
Proof.
  induction k as [|k IH]; intro L; cbv zeta.
  { cbn. split; [reflexivity|]. intros; discriminate. }
  specialize (IH ltac:(lia)). cbv zeta in IH.
  rewrite seq_S, filter_app, fold_left_app. cbn [filter]. change (0 + k)%nat with k.
  set (s := fold_left _ (filter _ (seq 0 k)) _) in *. clearbody s. destruct s as [obs oa]. cbn [fst snd] in IH.
  destruct IH as [IH1 IH2]. fold (valid k). destruct (valid k) eqn:V; cbn [fold_left].
  2:{ destruct oa as [a|]; [destruct IH2 as (i & m & r & _ & _ & _ & F); congruence|].
      assert (G : good_b k = false) by (unfold good_b; fold (valid k); rewrite V; reflexivity).
      cbn [rr fst snd]. rewrite G. split; [exact IH1|]. intros i m r E K. destruct (rr_inv good_b k) as (_ & I1 & _).
      destruct (I1 i m) as (_ & B & _); [rewrite E; now left|]. lia. }
  unfold loop_body. fold (pt k).
  assert (EV : ((length cols <=? S k)%nat || is_event (map c_valid cols) k) = negb (valid (S k))).
  { unfold is_event. fold (valid k) (valid (S k)). rewrite V. destruct (Nat.leb_spec (length cols) (S k)) as [J|J]; cbn.
    - unfold valid. rewrite nth_overflow by (rewrite map_length; exact J). reflexivity.
    - destruct (valid (S k)); reflexivity. }
  rewrite EV. fold (inr k). assert (GE : good_b k = inr k) by (unfold good_b; fold (valid k); rewrite V; reflexivity).
  change (let h := g_elev (op_tp (pt k)) in Rltb lo h && Rltb h hi) with (inr k).
  change (Rltb lo (g_elev (op_tp (pt k))) && Rltb (g_elev (op_tp (pt k))) hi) with (inr k).
  cbn [rr]. rewrite GE. destruct (inr k) eqn:I.
  - destruct oa as [a|].
    + destruct IH2 as (i & m & r & E & K & -> & _). rewrite E. rewrite (proj2 (Nat.eqb_eq _ _) K).
      rewrite E in IH1. cbn [rev] in IH1. rewrite map_app in IH1. cbn [map] in IH1. apply app_inj_tail in IH1. destruct IH1 as [IH1 _].
      assert (AE : mk_arc (arc_tx (arc_of (i, m))) (arc_rising (arc_of (i, m))) (arc_points (arc_of (i, m)) ++ [pt k]) = arc_of (i, S m)).
      { unfold arc_of. cbn [arc_tx arc_rising arc_points fst snd]. rewrite seq_S, map_app. cbn [map]. rewrite K. reflexivity. }
      cbv zeta. rewrite AE. assert (M : map arc_of (rev ((i, S m) :: r)) = obs ++ [arc_of (i, S m)]) by (cbn [rev]; rewrite map_app, IH1; reflexivity).
      destruct (valid (S k)) eqn:V2; cbn [negb fst snd].
      * split; [now rewrite M|]. exists i, (S m), r. repeat split; [lia].
      * split; [rewrite app_nil_r; now rewrite M|]. intros; reflexivity.
    + assert (E : match rr good_b k with (i, m) :: r => if (i + m =? k)%nat then (i, S m) :: r else (k, 1%nat) :: (i, m) :: r | [] => [(k, 1%nat)] end = (k, 1%nat) :: rr good_b k).
      { destruct (rr good_b k) as [|[i m] r] eqn:R; [reflexivity|]. destruct (Nat.eqb_spec (i + m) k) as [K|K]; [|reflexivity].
        specialize (IH2 i m r eq_refl K). congruence. }
      rewrite E. assert (AE : mk_arc name (Rltb (-90) (op_pitch (pt k))) ([] ++ [pt k]) = arc_of (k, 1%nat)) by reflexivity.
      cbn [arc_tx arc_rising arc_points]. rewrite AE. rewrite app_nil_r in IH1.
      assert (M : map arc_of (rev ((k, 1%nat) :: rr good_b k)) = obs ++ [arc_of (k, 1%nat)]) by (cbn [rev]; rewrite map_app, IH1; reflexivity).
      destruct (valid (S k)) eqn:V2; cbn [negb fst snd].
      * split; [now rewrite M|]. exists k, 1%nat, (rr good_b k). repeat split; [lia].
      * split; [rewrite app_nil_r; now rewrite M|]. intros; reflexivity.
  - assert (NB : forall i m r, rr good_b k = (i, m) :: r -> (i + m)%nat = S k -> valid (S k) = false).
    { intros i m r E K. destruct (rr_inv good_b k) as (_ & I1 & _). destruct (I1 i m) as (_ & B & _); [rewrite E; now left|]. lia. }
    destruct oa as [a|]; cbn [fst snd]; rewrite ?app_nil_r in *; (split; [exact IH1|exact NB]).
Qed.

Lemma arcs_lemma : ro_arcs name lo hi cols dflt = map arc_of (rev (rr good_b (length cols))).
Proof.
  destruct (loop_inv (length cols) (le_n _)) as [H1 H2]. unfold ro_arcs.
  set (s := fold_left _ _ _) in *. clearbody s. destruct s as [obs [a|]]; cbn [fst snd] in *.
  - destruct H2 as (i & m & r & _ & _ & _ & V). unfold valid in V. rewrite nth_overflow in V by (rewrite map_length; lia). discriminate.
  - rewrite app_nil_r in H1. exact H1.
Qed.
End Loop.

(** *** The series *)
Section Series.
Variables (gp : v3 -> v3 -> Z -> geo) (az : Z -> geo -> Z -> R) (track : Z -> Z -> pv).
Local Notation sample_ok := (sample_ok gp track).
Local Notation sample_ok_at := (sample_ok_at gp track).
Local Notation point_at := (fun rx tx (_ : R) => point_at gp az track rx tx).
Lemma skipn_next {A} i (l : list A) t r : skipn i l = t :: r -> skipn (S i) l = r.
Proof. revert l. induction i as [|i IH]; intros [|x l] H; cbn in *; try discriminate; [congruence|]. now apply IH. Qed.
Lemma firstn_skipn_seq {A B} (f : A -> B) (times : list A) (d : A) i m : (i + m <= length times)%nat ->
  map (fun j => f (nth j times d)) (seq i m) = map f (firstn m (skipn i times)).
Proof.
  revert i. induction m as [|m IH]; intros i H; [reflexivity|]. cbn [seq map].
  rewrite IH by lia. destruct (skipn i times) as [|t r] eqn:E.
  - apply (f_equal (@length A)) in E. rewrite skipn_length in E. cbn in E. lia.
  - cbn [firstn map]. f_equal.
    + f_equal. rewrite <- (firstn_skipn i times) at 1. rewrite app_nth2; rewrite firstn_length, Nat.min_l by lia; [|lia]. now rewrite E, Nat.sub_diag.
    + now rewrite (skipn_next _ _ _ _ E).
Qed.

Lemma good_iff rx tx my lo hi times j :
  good_b lo hi (map (ro_column gp az track rx tx my) times) (ro_column gp az track rx tx my 0%Z) j = true
  <-> sample_ok_at rx tx my lo hi times j.
Proof.
  unfold good_b, sample_ok_at, sample_ok. rewrite map_map. rewrite map_nth.
  destruct (nth_error times j) as [t|] eqn:E.
  - assert (L : (j < length times)%nat) by (apply nth_error_Some; congruence).
    assert (N : nth j times 0%Z = t) by (now apply nth_error_nth).
    assert (V : nth j (map (fun x => c_valid (ro_column gp az track rx tx my x)) times) false = ro_valid my (track rx t) (track tx t)).
    { rewrite (nth_indep _ _ (c_valid (ro_column gp az track rx tx my 0%Z))) by (rewrite map_length; exact L).
      rewrite (map_nth (fun x => c_valid (ro_column gp az track rx tx my x))), N. reflexivity. }
    rewrite V, N. cbn. rewrite !andb_true_iff, !Rltb_spec. split.
    + intros (A & B & C). exists t. auto.
    + intros (t' & Q & A & B). inversion Q; subst. tauto.
  - assert (L : (length times <= j)%nat) by (now apply nth_error_None).
    rewrite nth_overflow by (rewrite map_length; exact L). cbn. split; [discriminate|]. intros (t & Q & _). discriminate.
Qed.

Lemma maximal_run_ext (P Q : nat -> Prop) i m : (forall j, P j <-> Q j) -> maximal_run P i m <-> maximal_run Q i m.
Proof.
  intro H. unfold maximal_run. rewrite (H (i + m)%nat), (H (i - 1)%nat).
  assert ((forall j, (i <= j < i + m)%nat -> P j) <-> (forall j, (i <= j < i + m)%nat -> Q j)) as -> by (split; intros K j J; apply H, K, J). reflexivity.
Qed.

Lemma series_lemma : forall rx tx my lo hi times,
  exists runs, in_order runs
    /\ (forall i m, In (i, m) runs <-> maximal_run (sample_ok_at rx tx my lo hi times) i m)
    /\ map (fun a => (arc_tx a, arc_points a)) (collect_ro_series gp az track rx tx times my lo hi)
       = map (fun r => (tx, map (point_at rx tx my) (firstn (snd r) (skipn (fst r) times)))) runs.
Proof.
  intros. set (cols := map (ro_column gp az track rx tx my) times). set (d := ro_column gp az track rx tx my 0%Z).
  set (g := good_b lo hi cols d).
  assert (Hn : forall j, (length cols <= j)%nat -> g j = false).
  { intros j J. unfold g, good_b. rewrite nth_overflow by (rewrite map_length; exact J). reflexivity. }
  destruct (rr_maximal g (length cols) Hn) as [O M]. exists (rev (rr g (length cols))). split; [exact O|]. split.
  - intros i m. rewrite M. apply maximal_run_ext. intro j. apply good_iff.
  - unfold collect_ro_series. fold cols d. rewrite arcs_lemma. fold g. rewrite map_map. apply map_ext_in. intros [i m] H.
    cbn [arc_of arc_tx arc_points fst snd]. f_equal. rewrite <- in_rev in H. destruct (rr_inv g (length cols)) as (_ & I1 & _).
    destruct (I1 i m H) as (_ & B & _). unfold cols in B. rewrite map_length in B.
    rewrite <- (firstn_skipn_seq (point_at rx tx my) times 0%Z i m B). apply map_ext. intro j. unfold cols, d. rewrite map_nth. reflexivity.
Qed.

(** Every arc is non-empty, its points are good samples, and its rising flag is read off its first point. *)
Lemma series_in : forall rx tx my lo hi times a, In a (collect_ro_series gp az track rx tx times my lo hi) ->
  exists t ts, arc_points a = map (point_at rx tx my) (t :: ts) /\ (forall u, In u (t :: ts) -> In u times /\ sample_ok rx tx my lo hi u)
    /\ arc_tx a = tx /\ arc_rising a = Rltb (-90) (rx_tx_pitch (track rx t) (track tx t)).
Proof.
  intros rx tx my lo hi times a H. set (cols := map (ro_column gp az track rx tx my) times). set (d := ro_column gp az track rx tx my 0%Z).
  set (g := good_b lo hi cols d). unfold collect_ro_series in H. fold cols d in H. rewrite arcs_lemma in H. fold g in H.
  apply in_map_iff in H. destruct H as ([i m] & <- & H). rewrite <- in_rev in H. destruct (rr_inv g (length cols)) as (_ & I1 & _).
  destruct (I1 i m H) as (A & B & C & _). unfold cols in B. rewrite map_length in B. destruct m as [|m]; [lia|].
  exists (nth i times 0%Z), (map (fun j => nth j times 0%Z) (seq (S i) m)).
  split; [|split; [|split; [reflexivity|]]].
  - cbn [arc_of arc_points fst snd seq map]. f_equal; [unfold cols, d; rewrite map_nth; reflexivity|].
    rewrite map_map. apply map_ext. intro j. unfold cols, d. rewrite map_nth. reflexivity.
  - intros u U. assert (exists j, (i <= j < i + S m)%nat /\ u = nth j times 0%Z) as (j & J & ->).
    { destruct U as [U|U]; [exists i; split; [lia|auto]|]. apply in_map_iff in U. destruct U as (j & U & V). apply in_seq in V. exists j. split; [lia|auto]. }
    split; [apply nth_In; lia|]. specialize (C j J). apply good_iff in C. destruct C as (t & E & F). now rewrite (nth_error_nth _ _ _ E).
  - cbn [arc_of arc_rising fst]. unfold cols, d. rewrite map_nth. reflexivity.
Qed.
End Series.
