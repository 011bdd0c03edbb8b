(** Proofs about the arguments of constructors (C149). *)
From Coq Require Import String List Bool Arith Lia Permutation.
From Verif Require Import Schema_Model Schema_Spec Schema_Proofs Schema_Proofs2.
Import ListNotations.
Open Scope string_scope.

(** The tables of arguments against the declared fields. *)
Definition is_required (d : decl) : bool := match d_dflt d with Required => true | Default => false end.
Lemma demanded_table c n : In n (demanded c) <-> In n (map d_name (filter is_required (fields c))).
Proof. destruct c; cbn; tauto. Qed.
Lemma optional_table c n : In n (optional c) <-> In n (map d_name (filter (fun d => negb (is_required d)) (fields c))).
Proof. destruct c; cbn; tauto. Qed.
Lemma demanded_iff c n : In n (demanded c) <-> exists d, In d (fields c) /\ d_name d = n /\ d_dflt d = Required.
Proof.
  rewrite demanded_table, in_map_iff. split; intros (d & A & B).
  - apply filter_In in B. exists d. unfold is_required in B. destruct (d_dflt d) eqn:E; intuition discriminate.
  - exists d. destruct B as (<- & B). split; [reflexivity|]. apply filter_In. unfold is_required. now rewrite B.
Qed.
Lemma optional_iff c n : In n (optional c) <-> exists d, In d (fields c) /\ d_name d = n /\ d_dflt d = Default.
Proof.
  rewrite optional_table, in_map_iff. split; intros (d & A & B).
  - apply filter_In in B. exists d. unfold is_required in B. destruct (d_dflt d) eqn:E; intuition discriminate.
  - exists d. destruct B as (<- & B). split; [reflexivity|]. apply filter_In. unfold is_required. now rewrite B.
Qed.
Lemma simple_type c d : In d (fields c) -> (simple (d_name d) <-> d_type d = FScalar (d_name d)).
Proof.
  intro I. unfold simple. destruct c; cbn [fields circular_fields molniya_fields base_fields instrument_fields satellite_fields app] in I;
    repeat (destruct I as [<-|I]; [cbn; split; intro H; first [reflexivity|discriminate H|exfalso; tauto|intuition discriminate]|]); destruct I.
Qed.

Section A.
Variable atom : Type.
Notation pv := (pv atom).
Variable scalar : cls -> string -> pv -> option pv.
Variable default : cls -> string -> pv.
Variable walker_check : list (string * pv) -> bool.
Variable choose : list pv -> option pv.
Notation construct := (construct atom scalar default walker_check choose).
Notation validate := (validate atom scalar default walker_check choose).
Notation check := (check atom walker_check).
Notation default_of := (default_of atom default).

(** What becomes of one argument. *)
Definition argument (c : cls) (kw : list (string * pv)) (d : decl) : option pv :=
  match find (d_name d) kw with
  | Some v => match d_type d with FScalar f => scalar c f v | t => validate v t end
  | None => match d_dflt d with Required => None | Default => Some (default_of c d) end
  end.
Lemma construct_eq c kw : construct c kw =
  match all (map (fun d => option_map (pair (d_name d)) (argument c kw d)) (fields c)) with
  | Some l => if check c l then Some (PInst c l) else None
  | None => None
  end.
Proof.
  unfold Schema_Model.construct. cbn [Schema_Model.validate]. unfold model.
  replace (map (fun d => option_map (pair (d_name d)) (argument c kw d)) (fields c)) with
    (map (fun d => match find (d_name d) (map (fun e => (fst e, (snd e, validate (snd e)))) kw) with
                           | Some (v, k) => option_map (pair (d_name d)) (match d_type d with FScalar f => scalar c f v | t => k t end)
                           | None => match d_dflt d with Required => None | Default => Some (d_name d, default_of c d) end
                           end) (fields c)); [reflexivity|].
  apply map_ext. intro d. unfold argument. rewrite (find_map (fun v => (v, validate v))). destruct (find (d_name d) kw) as [v|]; [reflexivity|]. cbn. now destruct (d_dflt d).
Qed.
Lemma construct_inv c kw o : construct c kw = Some o ->
  exists l, o = PInst c l /\ check c l = true /\ map fst l = map d_name (fields c) /\ forall d, In d (fields c) -> argument c kw d <> None /\ find (d_name d) l = argument c kw d.
Proof.
  rewrite construct_eq. destruct (all _) as [l|] eqn:E; [|discriminate]. destruct (check c l) eqn:K; [|discriminate]. intro H. injection H as <-.
  exists l. split; [reflexivity|]. split; [exact K|]. apply all_In in E.
  assert (N : map fst l = map d_name (fields c)).
  { clear K. induction E as [|d p ds ps A B IH]; [reflexivity|]. cbn. destruct (argument c kw d); [|discriminate]. injection A as <-. cbn. f_equal. exact IH. }
  split; [exact N|]. intros d I. assert (exists v, argument c kw d = Some v /\ In (d_name d, v) l) as (v & V & W).
  { clear K N. induction E as [|d' p ds ps A B IH]; [destruct I|]. destruct I as [-> | I].
    - destruct (argument c kw d) as [v|]; [|discriminate]. injection A as <-. exists v. split; [reflexivity|now left].
    - destruct (IH I) as (v & V & W). exists v. split; [exact V|now right]. }
  rewrite V. split; [discriminate|]. apply find_unique; [rewrite N; apply names_nodup|exact W].
Qed.
Lemma construct_some c kw : c <> Walker -> (construct c kw <> None <-> forall d, In d (fields c) -> argument c kw d <> None).
Proof.
  intro W. split.
  - intros H d I. destruct (construct c kw) as [o|] eqn:E; [|congruence]. destruct (construct_inv c kw o E) as (l & _ & _ & _ & A). exact (proj1 (A d I)).
  - intro H. rewrite construct_eq. assert (exists l, all (map (fun d => option_map (pair (d_name d)) (argument c kw d)) (fields c)) = Some l) as (l & ->).
    { revert H. induction (fields c) as [|d ds IH]; intro H; [now exists []|]. cbn. destruct (argument c kw d) eqn:E; [|destruct (H d (or_introl eq_refl) E)].
      cbn. destruct IH as (l & ->); [intros; apply H; now right|]. eexists. reflexivity. }
    unfold Schema_Model.check. destruct c; try discriminate. congruence.
Qed.

Lemma demanded_given c kw n : construct c kw <> None -> In n (demanded c) -> find n kw <> None.
Proof.
  intros H I. apply demanded_iff in I. destruct I as (d & I & <- & D). destruct (construct c kw) as [o|] eqn:E; [|congruence].
  destruct (construct_inv c kw o E) as (l & _ & _ & _ & A). destruct (A d I) as [A1 _]. unfold argument in A1. intro F. rewrite F, D in A1. congruence.
Qed.
Lemma attributes_are c kw o n : construct c kw = Some o -> class o = Some c /\ (getattr o n <> None <-> In n (demanded c) \/ In n (optional c)).
Proof.
  intro H. destruct (construct_inv c kw o H) as (l & -> & _ & N & A). split; [reflexivity|]. cbn [getattr].
  assert (F : find n l <> None <-> In n (map d_name (fields c))).
  { rewrite <- N. destruct (find n l) eqn:E.
    - split; [intros _|discriminate]. apply find_In in E. apply in_map_iff. now exists (n, p).
    - split; [congruence|]. intro I. apply find_none in E. contradiction. }
  rewrite F, in_map_iff, demanded_iff, optional_iff. split.
  - intros (d & D & I). destruct (d_dflt d) eqn:E; [left|right]; now exists d.
  - intros [(d & I & D & _)|(d & I & D & _)]; now exists d.
Qed.
Lemma values_are c kw o n : construct c kw = Some o -> In n (demanded c) \/ In n (optional c) -> simple n ->
  getattr o n = match find n kw with Some v => scalar c n v | None => Some (default c n) end.
Proof.
  intros H I S. destruct (construct_inv c kw o H) as (l & -> & _ & N & A). cbn [getattr].
  assert (exists d, In d (fields c) /\ d_name d = n) as (d & D & <-).
  { destruct I as [I|I]; [apply demanded_iff in I|apply optional_iff in I]; destruct I as (d & I & D & _); now exists d. }
  destruct (A d D) as [A1 A2]. rewrite A2. unfold argument in *. rewrite (proj1 (simple_type c d D) S) in *.
  destruct (find (d_name d) kw) as [v|]; [reflexivity|]. unfold Schema_Model.default_of. rewrite (proj1 (simple_type c d D) S). destruct (d_dflt d); [congruence|reflexivity].
Qed.
Lemma flat_types c d : flat_class c -> In d (fields c) -> d_type d = FScalar (d_name d) \/ exists s, d = tag s /\ type_name c = Some s.
Proof.
  intros F I. destruct c; cbn in F; try (exfalso; intuition discriminate);
    cbn [fields circular_fields molniya_fields base_fields instrument_fields satellite_fields app] in I;
    repeat (destruct I as [<-|I]; [first [left; reflexivity|right; eexists; split; reflexivity]|]); destruct I.
Qed.
Lemma flat_accepted c kw : flat_class c ->
  (construct c kw <> None <->
   (forall n, In n (demanded c) -> find n kw <> None)
   /\ (forall n v, In n (demanded c) \/ In n (optional c) -> simple n -> find n kw = Some v -> scalar c n v <> None)
   /\ (forall s v, type_name c = Some s -> find "type" kw = Some v -> v = PStr s)).
Proof.
  intro F. assert (W : c <> Walker) by (intros ->; cbn in F; intuition discriminate). rewrite (construct_some c kw W). split.
  - intro H. split; [|split].
    + intros n I. apply (demanded_given c kw n); [now apply construct_some|exact I].
    + intros n v I S E. assert (exists d, In d (fields c) /\ d_name d = n) as (d & D & <-).
      { destruct I as [I|I]; [apply demanded_iff in I|apply optional_iff in I]; destruct I as (d & I & D & _); now exists d. }
      specialize (H d D). unfold argument in H. rewrite E, (proj1 (simple_type c d D) S) in H. exact H.
    + intros s v T E. specialize (H (tag s) (tag_field c s T)). unfold argument in H. cbn [d_name tag d_type] in H. rewrite E in H.
      destruct v; cbn in H; try congruence. destruct (s0 =? s) eqn:Q; [|congruence]. apply String.eqb_eq in Q. now subst.
  - intros (H1 & H2 & H3) d I. unfold argument. destruct (find (d_name d) kw) as [v|] eqn:E.
    + destruct (flat_types c d F I) as [T|(s & -> & T)].
      * rewrite T. apply (H2 (d_name d) v); [|now apply (simple_type c d I)|exact E].
        destruct (d_dflt d) eqn:Q; [left; apply demanded_iff|right; apply optional_iff]; now exists d.
      * cbn [d_name tag d_type] in *. rewrite (H3 s v T E). cbn. now rewrite String.eqb_refl.
    + destruct (d_dflt d) eqn:Q; [|discriminate]. exfalso. apply (H1 (d_name d)); [apply demanded_iff; now exists d|exact E].
Qed.
Lemma find_perm (kw kw' : list (string * pv)) n : NoDup (map fst kw) -> Permutation kw kw' -> find n kw = find n kw'.
Proof.
  intros N P. assert (N' : NoDup (map fst kw')) by (eapply Permutation_NoDup; [apply Permutation_map, P|exact N]).
  destruct (find n kw) as [v|] eqn:E.
  - apply find_In in E. symmetry. apply find_unique; [exact N'|]. now apply (Permutation_in _ P).
  - destruct (find n kw') as [v|] eqn:E'; [|reflexivity]. apply find_In in E'. apply (Permutation_in _ (Permutation_sym P)) in E'.
    rewrite (find_unique n kw v N E') in E. discriminate.
Qed.
Lemma order_free c kw kw' : NoDup (map fst kw) -> Permutation kw kw' -> construct c kw = construct c kw'.
Proof.
  intros N P. rewrite !construct_eq. replace (map (fun d => option_map (pair (d_name d)) (argument c kw' d)) (fields c)) with
    (map (fun d => option_map (pair (d_name d)) (argument c kw d)) (fields c)); [reflexivity|].
  apply map_ext. intro d. unfold argument. now rewrite (find_perm kw kw' (d_name d) N P).
Qed.
Lemma walker_validated kw o : construct Walker kw = Some o -> exists l, o = PInst Walker l /\ walker_check l = true.
Proof. intro H. destruct (construct_inv Walker kw o H) as (l & -> & K & _). exists l. split; [reflexivity|exact K]. Qed.
(** The discriminator and the lists of objects when they are left out. *)
Lemma left_out c kw o : construct c kw = Some o ->
  (forall s, type_name c = Some s -> getattr o "type" = Some (PStr s))
  /\ (space_system c -> find "instruments" kw = None ->
      exists i, getattr o "instruments" = Some (PList [i]) /\ class i = Some Instrument /\ (forall n, In n (optional Instrument) -> getattr i n = Some (default Instrument n)))
  /\ (c = Architecture -> (find "satellites" kw = None -> getattr o "satellites" = Some (PList [])) /\ (find "stations" kw = None -> getattr o "stations" = Some (PList []))).
Proof.
  intro H. destruct (construct_inv c kw o H) as (l & -> & _ & N & A). cbn [getattr]. split; [|split].
  - intros s T. destruct (A (tag s) (tag_field c s T)) as [A1 A2]. cbn [d_name tag] in A2. rewrite A2. unfold argument in *. cbn [d_name tag d_type d_dflt] in *.
    destruct (find "type" kw) as [v|]; [|reflexivity]. destruct v; cbn in *; try congruence. destruct (s0 =? s) eqn:E; [|congruence]. apply String.eqb_eq in E. now subst.
  - intros S F. assert (D : In (mk_decl "instruments" (FList (FModel Instrument) 1) Default) (fields c)).
    { destruct S as [<-|[<-|[<-|[<-|[<-|[]]]]]]; cbn; tauto. }
    destruct (A _ D) as [_ A2]. cbn [d_name] in A2. rewrite A2. unfold argument. cbn [d_name d_dflt]. rewrite F. unfold Schema_Model.default_of. cbn [d_type].
    eexists. split; [reflexivity|]. split; [reflexivity|]. intros n I. cbn in I. repeat (destruct I as [<-|I]; [reflexivity|]). destruct I.
  - intros ->. split; intro F.
    + assert (D : In (mk_decl "satellites" (FList (FUnion [Satellite; Train; Walker; Mog]) 0) Default) (fields Architecture)) by (cbn; tauto).
      destruct (A _ D) as [_ A2]. cbn [d_name] in A2. rewrite A2. unfold argument. cbn [d_name d_dflt]. now rewrite F.
    + assert (D : In (mk_decl "stations" (FList (FModel GroundStation) 0) Default) (fields Architecture)) by (cbn; tauto).
      destruct (A _ D) as [_ A2]. cbn [d_name] in A2. rewrite A2. unfold argument. cbn [d_name d_dflt]. now rewrite F.
Qed.
End A.
