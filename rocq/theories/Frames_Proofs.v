(** Columns of results: proofs. *)
From Coq Require Import String List Bool Arith Lia.
From Verif Require Import Base BaseFacts Frames_Model Frames_Spec.
Import ListNotations.
Open Scope string_scope.
Open Scope list_scope.

(** ** Concrete lists of names *)
Fixpoint nodupb (l : list string) : bool := match l with [] => true | c :: r => negb (existsb (String.eqb c) r) && nodupb r end.
Lemma existsb_in c l : existsb (String.eqb c) l = true <-> In c l.
Proof.
  rewrite existsb_exists. split; [intros (x & H & E); apply String.eqb_eq in E; now subst|]. intro H. exists c. split; [exact H|apply String.eqb_refl].
Qed.
Lemma existsb_out c l : existsb (String.eqb c) l = false <-> ~ In c l.
Proof.
  rewrite <- existsb_in. destruct (existsb _ l); split; intro H; congruence.
Qed.
Lemma nodupb_ok l : nodupb l = true -> NoDup l.
Proof.
  induction l as [|c l IH]; intro H; [constructor|]. cbn in H. apply andb_true_iff in H. destruct H as [H1 H2]. constructor; [|now apply IH].
  apply negb_true_iff in H1. now apply existsb_out.
Qed.
Definition sameb (a b : list string) : bool := forallb (fun c => existsb (String.eqb c) b) a && forallb (fun c => existsb (String.eqb c) a) b.
Lemma sameb_ok a b : sameb a b = true -> forall c, In c a <-> In c b.
Proof.
  unfold sameb. rewrite andb_true_iff, !forallb_forall. intros [H1 H2] c. split; intro H; apply existsb_in; auto.
Qed.
Lemma columns_check f cs : nodupb (cols f) && sameb (cols f) cs = true -> columns_are f cs.
Proof.
  rewrite andb_true_iff. intros [H1 H2]. split; [now apply nodupb_ok|now apply sameb_ok].
Qed.
Lemma use_ok f cs : (forall c, In c cs -> In c (cols f)) -> use f cs = Ok tt.
Proof.
  intro H. unfold use. replace (forallb (has f) cs) with true; [reflexivity|]. symmetry. apply forallb_forall. intros c I. apply existsb_in. auto.
Qed.
Lemma has_in f c : has f c = true <-> In c (cols f).
Proof. apply existsb_in. Qed.
Lemma in_use f cs ds : columns_are f ds -> sameb cs cs && forallb (fun c => existsb (String.eqb c) ds) cs = true -> use f cs = Ok tt.
Proof.
  intros [_ H] K. apply andb_true_iff in K. destruct K as [_ K]. rewrite forallb_forall in K. apply use_ok. intros c I. apply H, existsb_in, K, I.
Qed.
Lemma assign_cols f c cs : columns_are f cs -> columns_are (assign f c) (cs ++ [c]).
Proof.
  intros [N H]. unfold assign. destruct (has f c) eqn:E.
  - split; [exact N|]. intro d. rewrite H, in_app_iff. split; [auto|]. intros [K|[<-|[]]]; [exact K|]. apply H, has_in, E.
  - split; cbn; [|intro d; rewrite !in_app_iff, H; tauto]. apply not_true_iff_false in E. rewrite has_in in E. clear H.
    induction (cols f) as [|x l IH]; cbn; [constructor; [tauto|constructor]|]. inversion N; subst. constructor.
    + rewrite in_app_iff. intros [K|[K|[]]]; [tauto|subst; apply E; now left].
    + apply IH; [assumption|]. intro K. apply E. now right.
Qed.
Lemma assign_rows f c : nrows (assign f c) = nrows f.
Proof. unfold assign. now destruct (has f c). Qed.
Lemma assigns_rows cs f : nrows (assigns f cs) = nrows f.
Proof. revert f. induction cs as [|c cs IH]; intro f; [reflexivity|]. change (assigns f (c :: cs)) with (assigns (assign f c) cs). now rewrite IH, assign_rows. Qed.

(** ** pd.concat *)
Lemma union_nodup a b : NoDup a -> NoDup b -> NoDup (union a b).
Proof.
  intros A B. unfold union. induction A as [|x a Hx A IH]; cbn.
  - replace (filter _ b) with b; [exact B|]. symmetry. induction b as [|y b IHb]; [reflexivity|]. cbn. inversion B; subst. now rewrite IHb.
  - constructor.
    + rewrite in_app_iff, filter_In. intros [K|[_ K]]; [tauto|]. rewrite String.eqb_refl in K. discriminate.
    + assert (E : forall l : list string, NoDup l -> NoDup (a ++ l) -> NoDup (a ++ filter (fun c => negb (String.eqb c x)) l)).
      { clear. intros l L. induction a as [|y a IHa]; cbn; intro H; [now apply NoDup_filter|]. inversion H; subst. constructor; [|auto].
        intro K. apply H2. rewrite in_app_iff in *. destruct K as [K|K]; [now left|]. apply filter_In in K. tauto. }
      specialize (E _ (NoDup_filter _ B) IH). clear IH. revert E. generalize a at 1 3. intros pre E.
      replace (filter (fun c => negb (String.eqb c x || existsb (String.eqb c) a)) b) with (filter (fun c => negb (String.eqb c x)) (filter (fun c => negb (existsb (String.eqb c) a)) b)); [exact E|].
      clear. induction b as [|y b IHb]; [reflexivity|]. cbn. destruct (existsb (String.eqb y) a); cbn; destruct (String.eqb y x); cbn; now rewrite IHb.
Qed.
Lemma union_in a b c : In c (union a b) <-> In c a \/ In c b.
Proof.
  unfold union. rewrite in_app_iff, filter_In. destruct (existsb (String.eqb c) a) eqn:E.
  - apply existsb_in in E. tauto.
  - cbn. tauto.
Qed.
Lemma concat_spec fs : fs <> [] -> Forall (fun f => NoDup (cols f)) fs ->
  exists f, concat fs = Ok f /\ NoDup (cols f) /\ (forall c, In c (cols f) <-> exists g, In g fs /\ In c (cols g))
    /\ (nrows f = 0%nat <-> Forall (fun g => nrows g = 0%nat) fs).
Proof.
  destruct fs as [|f fs]; [congruence|]. intros _ F. inversion F as [|? ? F1 F2]; subst. cbn [concat]. eexists. split; [reflexivity|]. clear F.
  revert f F1. induction fs as [|g fs IH]; intros f F1; cbn [fold_left].
  - split; [exact F1|]. split.
    + intro c. split; [intro H; exists f; split; [now left|exact H]|]. intros (h & [<-|[]] & H). exact H.
    + split; intro H; [constructor; [exact H|constructor]|now inversion H].
  - inversion F2 as [|? ? G1 G2]; subst. destruct (IH G2 (mk_frame (union (cols f) (cols g)) (nrows f + nrows g)) (union_nodup _ _ F1 G1)) as (N & C & R).
    split; [exact N|]. split.
    + intro c. rewrite C. split.
      * intros (h & [<-|I] & H); cbn [cols] in *.
        -- apply union_in in H. destruct H as [H|H]; [exists f|exists g]; (split; [|exact H]); [now left|right; now left].
        -- exists h. split; [right; now right|exact H].
      * intros (h & [<-|[<-|I]] & H).
        -- eexists. split; [now left|]. cbn. apply union_in. now left.
        -- eexists. split; [now left|]. cbn. apply union_in. now right.
        -- exists h. split; [now right|exact H].
    + rewrite R. split; intro H; inversion H as [|? ? H1 H2]; subst; cbn [nrows] in *.
      * repeat constructor; [lia..|exact H2].
      * inversion H2 as [|? ? H3 H4]; subst. constructor; [cbn; lia|exact H4].
Qed.
Lemma concat_same fs cs : fs <> [] -> Forall (fun f => columns_are f cs) fs ->
  exists f, concat fs = Ok f /\ columns_are f cs /\ (nrows f = 0%nat <-> Forall (fun g => nrows g = 0%nat) fs).
Proof.
  intros N F. destruct (concat_spec fs N) as (f & E & D & C & R); [eapply Forall_impl; [|exact F]; intros a [H _]; exact H|].
  exists f. split; [exact E|]. split; [|exact R]. split; [exact D|]. intro c. rewrite C. rewrite Forall_forall in F. split.
  - intros (g & I & H). now apply (proj2 (F g I)).
  - intro H. destruct fs as [|g fs]; [congruence|]. exists g. split; [now left|]. apply (proj2 (F g (or_introl eq_refl))). exact H.
Qed.

(** ** Coverage *)
Lemma observations_columns omit n : columns_are (collect_observations omit n) (observation_columns omit) /\ nrows (collect_observations omit n) = n.
Proof. destruct n as [|n], omit; (split; [apply columns_check; reflexivity|reflexivity]). Qed.
Lemma multi_columns omit ns : ns <> [] ->
  exists f, collect_multi_observations omit ns = Ok f /\ columns_are f (observation_columns omit) /\ (nrows f = 0%nat <-> Forall (fun n => n = 0%nat) ns).
Proof.
  intro N. destruct (concat_same (map (collect_observations omit) ns) (observation_columns omit)) as (f & E & C & R).
  - now destruct ns.
  - apply Forall_forall. intros g I. apply in_map_iff in I. destruct I as (n & <- & _). apply observations_columns.
  - exists f. unfold collect_multi_observations. rewrite E. cbn [bind]. unfold sort_values. rewrite (in_use f _ _ C) by (destruct omit; reflexivity).
    split; [reflexivity|]. split; [exact C|]. rewrite R, Forall_map. split; intro H; eapply Forall_impl; try exact H; intros n Hn; cbn in *; destruct (observations_columns omit n) as [_ K]; congruence.
Qed.
(** A result of aggregate_observations: with rows all columns, without rows those of the empty frame. *)
Lemma aggregate_columns_ok parts obs omit : splits_rows parts -> columns_are obs (observation_columns omit) ->
  exists f, aggregate_observations parts obs = Ok f /\ (nrows f = 0%nat <-> nrows obs = 0%nat)
    /\ (nrows obs <> 0%nat -> columns_are f aggregate_columns) /\ (nrows obs = 0%nat -> f = empty_aggregate_frame).
Proof.
  intros P C. unfold aggregate_observations, empty. destruct (Nat.eqb_spec (nrows obs) 0) as [Z|Z].
  - exists empty_aggregate_frame. split; [reflexivity|]. split; [now rewrite Z|]. split; [congruence|reflexivity].
  - rewrite (in_use obs _ _ C) by (destruct omit; reflexivity). cbn [bind]. destruct (P obs Z) as [N F].
    assert (A : forall p, aggregate_point (cols obs) p = Ok (mk_frame ["geometry"; "point_id"; "satellite"; "instrument"; "start"; "epoch"; "end"; "access"; "revisit"] (snd p))).
    { intros [n g]. unfold aggregate_point. cbn [fst snd]. set (d := mk_frame (cols obs) n). assert (D : columns_are d (observation_columns omit)) by exact C.
      unfold sort_values at 1. rewrite (in_use d _ _ D) by (destruct omit; reflexivity). cbn [bind]. rewrite (in_use d _ _ D) by (destruct omit; reflexivity). cbn [bind].
      unfold dissolve. pose proof (assign_cols d "obs" _ D) as D'. rewrite (in_use _ _ _ D') by (destruct omit; reflexivity). reflexivity. }
    assert (M : forall l, mapM (aggregate_point (cols obs)) l = Ok (map (fun p => mk_frame ["geometry"; "point_id"; "satellite"; "instrument"; "start"; "epoch"; "end"; "access"; "revisit"] (snd p)) l)).
    { induction l as [|p l IH]; [reflexivity|]. cbn [mapM map]. now rewrite A, IH. }
    rewrite M. cbn [bind]. match goal with |- context [concat (map ?h ?l)] => destruct (concat_same (map h l) aggregate_columns) as (f & E & K & R) end.
    + now destruct (parts obs).
    + apply Forall_map, Forall_forall. intros p _. apply columns_check. reflexivity.
    + exists f. split; [exact E|]. split; [|split; [auto|congruence]]. rewrite R, Forall_map. split; [|congruence]. intro H. exfalso.
      destruct (parts obs) as [|p l]; [congruence|]. inversion H; subst. inversion F; subst. cbn in *. tauto.
Qed.
(** Frames of aggregated observations, also put together for several points. *)
Definition aggregated_like (f : frame) : Prop := NoDup (cols f) /\ (forall c, In c (cols f) -> In c aggregate_columns)
  /\ (nrows f <> 0%nat -> forall c, In c aggregate_columns -> In c (cols f)).
Lemma aggregate_like parts obs omit f : splits_rows parts -> columns_are obs (observation_columns omit) -> aggregate_observations parts obs = Ok f -> aggregated_like f.
Proof.
  intros P C E. destruct (aggregate_columns_ok parts obs omit P C) as (g & E' & R & A & B). rewrite E in E'. injection E' as <-.
  destruct (Nat.eq_dec (nrows obs) 0) as [Z|Z].
  - rewrite (B Z). split; [apply nodupb_ok; reflexivity|]. split; [|cbn; congruence]. intros c I. cbn in I. cbn. tauto.
  - destruct (A Z) as [N K]. split; [exact N|]. split; intros; apply K; assumption.
Qed.
Lemma concat_like fs : fs <> [] -> Forall aggregated_like fs -> exists f, concat fs = Ok f /\ aggregated_like f.
Proof.
  intros N F. destruct (concat_spec fs N) as (f & E & D & C & R); [eapply Forall_impl; [|exact F]; intros a [H _]; exact H|].
  exists f. split; [exact E|]. split; [exact D|]. rewrite Forall_forall in F. split.
  - intros c I. apply C in I. destruct I as (g & G & I). now apply (proj1 (proj2 (F g G))).
  - intros Z c I. apply C. assert (X : exists g, In g fs /\ nrows g <> 0%nat).
    { destruct (Exists_dec (fun g => nrows g <> 0%nat) fs) as [X|X]; [intro g; destruct (Nat.eq_dec (nrows g) 0); [right|left]; congruence|now apply Exists_exists|].
      exfalso. apply Z, R, Forall_forall. intros g G. destruct (Nat.eq_dec (nrows g) 0) as [K|K]; [exact K|]. exfalso. apply X, Exists_exists. eauto. }
    destruct X as (g & G & K). exists g. split; [exact G|]. now apply (proj2 (proj2 (F g G))).
Qed.
Lemma reduce_like points f : (forall g, nrows g <> 0%nat -> points g <> 0%nat) -> aggregated_like f ->
  exists g, reduce_observations points f = Ok g /\ columns_are g reduced_columns /\ (nrows g = 0%nat <-> nrows f = 0%nat).
Proof.
  intros P (N & S1 & S2). unfold reduce_observations, empty. destruct (Nat.eqb_spec (nrows f) 0) as [Z|Z].
  - eexists. split; [reflexivity|]. split; [apply columns_check; reflexivity|]. now rewrite Z.
  - specialize (S2 Z). assert (D : columns_are f aggregate_columns) by (split; [exact N|]; intro c; split; auto).
    rewrite (in_use f _ _ D) by reflexivity. cbn [bind]. pose proof (assign_cols f "samples" _ D) as D'. unfold dissolve. rewrite (in_use _ _ _ D') by reflexivity. cbn [bind].
    eexists. split; [reflexivity|]. split; [apply columns_check; reflexivity|]. cbn. specialize (P f Z). tauto.
Qed.
Lemma suffix_neq c d s : (d ++ s)%string = c -> exists e, c = (e ++ s)%string.
Proof. intros <-. now exists d. Qed.
Lemma grid_columns_ok joined g n : columns_are g reduced_columns -> gives (grid_observations joined g (generated_cells n)) grid_columns.
Proof.
  intro C. unfold grid_observations, empty. destruct (Nat.eqb_spec (nrows g) 0) as [Z|Z].
  - eexists. split; [reflexivity|]. apply columns_check. reflexivity.
  - rewrite (in_use g _ _ C) by reflexivity. cbn [bind]. unfold sjoin. rewrite (use_ok (generated_cells n)) by (cbn; tauto). cbn [bind].
    rewrite (in_use g _ _ C) by reflexivity. cbn [bind].
    unfold dissolve. rewrite use_ok; [cbn [bind]; eexists; split; [reflexivity|apply columns_check; reflexivity]|].
    assert (H : has g "cell_id" = false) by (apply not_true_iff_false; rewrite has_in; intro I; apply (proj2 C) in I; cbn in I; intuition discriminate).
    assert (K : forall c, In c ["samples"; "access"; "revisit"] -> In c (map (fun c => if has (generated_cells n) c && has g c && negb (String.eqb c "geometry") then (c ++ "_right")%string else c) (filter (fun c => negb (String.eqb c "geometry")) (cols g)))).
    { intros c I. apply in_map_iff. exists c. split; [|apply filter_In; split; [apply (proj2 C)|]; cbn in I |- *; intuition (subst; cbn; auto 10)].
      cbn in I. intuition (subst; reflexivity). }
    cbn [cols]. intros c I. apply in_app_iff. destruct I as [<-|[<-|I]].
    + left. cbn. rewrite andb_false_r. auto.
    + left. cbn. rewrite H. cbn. auto.
    + right. right. now apply K.
Qed.

(** ** Latency *)
Lemma downlinks_columns n : exists f, collect_downlinks n = Ok f /\ columns_are f downlink_columns /\ nrows f = n.
Proof. destruct n as [|n]; (eexists; split; [reflexivity|]; split; [apply columns_check; reflexivity|reflexivity]). Qed.

Lemma merge_spec l r by_ lon ron f : merge_asof l r by_ lon ron = Ok f ->
  nrows f = nrows l
  /\ (forall c, In c (cols l) -> ~ In c (cols r) \/ c = by_ -> In c (cols f))
  /\ (forall c, In c (cols r) -> c <> by_ -> ~ In c (cols l) -> In c (cols f))
  /\ (forall c, In c (cols l) -> In c (cols r) -> c <> by_ -> In (c ++ "_x")%string (cols f) /\ In (c ++ "_y")%string (cols f)).
Proof.
  unfold merge_asof. intro H. destruct (use l [by_; lon]); [|discriminate]. destruct (use r [by_; ron]); [|discriminate]. cbn [bind] in H. injection H as <-. cbn [cols nrows].
  split; [reflexivity|]. split; [|split].
  - intros c I [O| ->]; apply in_app_iff; left; apply in_map_iff; [exists c|exists by_]; (split; [|exact I]).
    + replace (has r c) with false; [now rewrite andb_false_r|]. symmetry. apply not_true_iff_false. now rewrite has_in.
    + rewrite String.eqb_refl. now rewrite andb_false_r.
  - intros c I N O. apply in_app_iff. right. apply in_map_iff. exists c. split.
    + replace (has l c) with false; [reflexivity|]. symmetry. apply not_true_iff_false. now rewrite has_in.
    + apply filter_In. split; [exact I|]. apply negb_true_iff. now apply String.eqb_neq.
  - intros c I J N. apply has_in in I as I'. apply has_in in J as J'. apply String.eqb_neq in N as N'.
    split; apply in_app_iff; [left|right]; apply in_map_iff; exists c; rewrite I', J', N'; (split; [reflexivity|]); [exact I|]. apply filter_In. split; [exact J|]. now rewrite N'.
Qed.
Lemma rename_in f m c d : In c (cols f) -> (match find (fun p => String.eqb (fst p) c) m with Some p => snd p | None => c end) = d -> In d (cols (rename f m)).
Proof. intros I E. cbn. apply in_map_iff. exists c. split; assumption. Qed.
Lemma assign_in f c d : In d (cols f) \/ d = c -> In d (cols (assign f c)).
Proof.
  unfold assign. destruct (has f c) eqn:E; [apply has_in in E|]; intros [I| ->]; cbn; try assumption; apply in_app_iff; [now left|right; now left].
Qed.
Lemma latencies_columns obs omit down : columns_are obs (observation_columns omit) -> columns_are down downlink_columns ->
  exists f, compute_latencies obs down = Ok f
    /\ (nrows obs <> 0%nat -> nrows down <> 0%nat -> columns_are f latency_columns /\ nrows f = nrows obs)
    /\ (nrows obs = 0%nat \/ nrows down = 0%nat -> f = empty_latency_frame).
Proof.
  intros CO CD. unfold compute_latencies, empty. destruct (Nat.eqb_spec (nrows obs) 0) as [Z|Z]; [eexists; split; [reflexivity|]; split; [congruence|reflexivity]|].
  destruct (Nat.eqb_spec (nrows down) 0) as [Y|Y]; [eexists; split; [reflexivity|]; split; [congruence|reflexivity]|]. cbn [orb].
  unfold sort_values. rewrite (in_use obs _ _ CO) by (destruct omit; reflexivity). cbn [bind]. rewrite (in_use down _ _ CD) by reflexivity. cbn [bind].
  assert (M : exists m, merge_asof obs down "satellite" "end" "start" = Ok m).
  { unfold merge_asof. rewrite (in_use obs _ _ CO) by (destruct omit; reflexivity). cbn [bind]. rewrite (in_use down _ _ CD) by reflexivity. cbn [bind]. eexists. reflexivity. }
  destruct M as (m & M). rewrite M. cbn [bind]. destruct (merge_spec _ _ _ _ _ _ M) as (R & ML & MR & MB).
  assert (IO : forall c, existsb (String.eqb c) (observation_columns omit) = true -> In c (cols obs)) by (intros c H; apply (proj2 CO), existsb_in, H).
  assert (ID : forall c, existsb (String.eqb c) downlink_columns = true -> In c (cols down)) by (intros c H; apply (proj2 CD), existsb_in, H).
  assert (NO : forall c, existsb (String.eqb c) (observation_columns omit) = false -> ~ In c (cols obs)) by (intros c H I; apply (proj2 CO) in I; apply existsb_in in I; congruence).
  assert (ND : forall c, existsb (String.eqb c) downlink_columns = false -> ~ In c (cols down)) by (intros c H I; apply (proj2 CD) in I; apply existsb_in in I; congruence).
  destruct (MB "epoch" (IO "epoch" ltac:(destruct omit; reflexivity)) (ID "epoch" eq_refl) ltac:(discriminate)) as [EX EY].
  destruct (MB "geometry" (IO "geometry" ltac:(destruct omit; reflexivity)) (ID "geometry" eq_refl) ltac:(discriminate)) as [GX GY].
  rewrite use_ok by (intros c [<-|[<-|[]]]; assumption). cbn [bind].
  match goal with |- context [select ?r ?cs] => set (f := r); assert (U : forall c, In c cs -> In c (cols f)) end.
  { assert (K : forall c d, In c (cols m) \/ c = "latency" -> (match find (fun p => String.eqb (fst p) c) [("station_y", "station"); ("epoch_y", "downlinked"); ("epoch_x", "observed"); ("geometry_x", "geometry"); ("sat_alt_x", "sat_alt"); ("sat_az_x", "sat_az")] with Some p => snd p | None => c end) = d -> In d (cols f)).
    { intros c d I E. unfold f. eapply rename_in; [apply assign_in, I|exact E]. }
    intros c I. cbn [In] in I.
    repeat (destruct I as [<-|I]; [|]); [..|destruct I].
    - apply (K "point_id"); [left; apply ML; [apply IO; destruct omit; reflexivity|left; now apply ND]|reflexivity].
    - apply (K "geometry_x"); [now left|reflexivity].
    - apply (K "satellite"); [left; apply ML; [apply IO; destruct omit; reflexivity|now right]|reflexivity].
    - apply (K "instrument"); [left; apply ML; [apply IO; destruct omit; reflexivity|left; now apply ND]|reflexivity].
    - apply (K "sat_alt"); [left; apply ML; [apply IO; destruct omit; reflexivity|left; now apply ND]|reflexivity].
    - apply (K "sat_az"); [left; apply ML; [apply IO; destruct omit; reflexivity|left; now apply ND]|reflexivity].
    - apply (K "station"); [left; apply MR; [now apply ID|discriminate|apply NO; destruct omit; reflexivity]|reflexivity].
    - apply (K "epoch_y"); [now left|reflexivity].
    - apply (K "latency"); [now right|reflexivity].
    - apply (K "epoch_x"); [now left|reflexivity]. }
  unfold select. rewrite (use_ok f _ U). cbn [bind]. eexists. split; [reflexivity|]. split; [|intros [?|?]; congruence]. intros _ _.
  split; [apply columns_check; reflexivity|]. cbn [nrows]. unfold f, rename. cbn [nrows]. now rewrite assign_rows.
Qed.
Lemma reduce_latencies_ok points f : (forall g, nrows g <> 0%nat -> points g <> 0%nat) -> (nrows f <> 0%nat -> columns_are f latency_columns) ->
  exists g, reduce_latencies points f = Ok g /\ columns_are g reduced_latency_columns /\ (nrows g = 0%nat <-> nrows f = 0%nat).
Proof.
  intros P C. unfold reduce_latencies, empty. destruct (Nat.eqb_spec (nrows f) 0) as [Z|Z].
  - eexists. split; [reflexivity|]. split; [apply columns_check; reflexivity|]. now rewrite Z.
  - specialize (C Z). rewrite (in_use f _ _ C) by reflexivity. cbn [bind]. pose proof (assign_cols f "samples" _ C) as D'. unfold dissolve. rewrite (in_use _ _ _ D') by reflexivity. cbn [bind].
    eexists. split; [reflexivity|]. split; [apply columns_check; reflexivity|]. cbn. specialize (P f Z). tauto.
Qed.
Lemma grid_latency_columns_ok joined g n : columns_are g reduced_latency_columns -> gives (grid_latencies joined g (generated_cells n)) grid_latency_columns.
Proof.
  intro C. unfold grid_latencies, empty. destruct (Nat.eqb_spec (nrows g) 0) as [Z|Z].
  - eexists. split; [reflexivity|]. apply columns_check. reflexivity.
  - rewrite (in_use g _ _ C) by reflexivity. cbn [bind]. unfold sjoin. rewrite (use_ok (generated_cells n)) by (cbn; tauto). cbn [bind].
    rewrite (in_use g _ _ C) by reflexivity. cbn [bind].
    unfold dissolve. rewrite use_ok; [cbn [bind]; eexists; split; [reflexivity|apply columns_check; reflexivity]|].
    assert (H : has g "cell_id" = false) by (apply not_true_iff_false; rewrite has_in; intro I; apply (proj2 C) in I; cbn in I; intuition discriminate).
    assert (K : forall c, In c ["samples"; "latency"] -> In c (map (fun c => if has (generated_cells n) c && has g c && negb (String.eqb c "geometry") then (c ++ "_right")%string else c) (filter (fun c => negb (String.eqb c "geometry")) (cols g)))).
    { intros c I. apply in_map_iff. exists c. split; [|apply filter_In; split; [apply (proj2 C)|]; cbn in I |- *; intuition (subst; cbn; auto 10)].
      cbn in I. intuition (subst; reflexivity). }
    cbn [cols]. intros c I. apply in_app_iff. destruct I as [<-|[<-|I]].
    + left. cbn. rewrite andb_false_r. auto.
    + left. cbn. rewrite H. cbn. auto.
    + right. right. now apply K.
Qed.

(** ** Whole analyses *)
(** The coverage of several points: observations of each are collected and aggregated, put together, reduced and gridded. *)
Definition coverage_analysis (omit : bool) (parts : frame -> list (nat * nat)) (points : frame -> nat) (joined : frame -> frame -> nat * nat) (cells : frame) (nss : list (list nat)) : pyres frame :=
  bind (mapM (fun ns => bind (collect_multi_observations omit ns) (aggregate_observations parts)) nss) (fun fs =>
  bind (concat fs) (fun f => bind (reduce_observations points f) (fun g => grid_observations joined g cells))).
Lemma coverage_chain omit parts points joined n nss : splits_rows parts -> (forall g, nrows g <> 0%nat -> points g <> 0%nat) ->
  nss <> [] -> Forall (fun ns => ns <> []) nss -> gives (coverage_analysis omit parts points joined (generated_cells n) nss) grid_columns.
Proof.
  intros P Q N F. unfold coverage_analysis.
  assert (M : exists fs, mapM (fun ns => bind (collect_multi_observations omit ns) (aggregate_observations parts)) nss = Ok fs /\ length fs = length nss /\ Forall aggregated_like fs).
  { clear N. induction F as [|ns nss H F IH]; [exists []; repeat split; constructor|]. destruct IH as (fs & E & L & A). cbn [mapM].
    destruct (multi_columns omit ns H) as (f & E1 & C1 & _). rewrite E1. cbn [bind]. destruct (aggregate_columns_ok parts f omit P C1) as (g & E2 & _). rewrite E2. cbn [bind]. rewrite E. cbn [bind].
    eexists. split; [reflexivity|]. split; [cbn; lia|]. constructor; [|exact A]. exact (aggregate_like _ _ _ _ P C1 E2). }
  destruct M as (fs & E & L & A). rewrite E. cbn [bind]. destruct (concat_like fs) as (f & E2 & A2); [destruct fs, nss; cbn in L; congruence|exact A|]. rewrite E2. cbn [bind].
  destruct (reduce_like points f Q A2) as (g & E3 & C3 & _). rewrite E3. cbn [bind]. now apply grid_columns_ok.
Qed.
(** The latency of observations. *)
Definition latency_analysis (omit : bool) (points : frame -> nat) (joined : frame -> frame -> nat * nat) (cells : frame) (ns : list nat) (d : nat) : pyres frame :=
  bind (collect_multi_observations omit ns) (fun obs => bind (collect_downlinks d) (fun down =>
  bind (compute_latencies obs down) (fun f => bind (reduce_latencies points f) (fun g => grid_latencies joined g cells)))).
Lemma latency_chain omit points joined n ns d : (forall g, nrows g <> 0%nat -> points g <> 0%nat) ->
  ns <> [] -> gives (latency_analysis omit points joined (generated_cells n) ns d) grid_latency_columns.
Proof.
  intros Q N. unfold latency_analysis. destruct (multi_columns omit ns N) as (f & E1 & C1 & _). rewrite E1. cbn [bind].
  destruct (downlinks_columns d) as (w & E2 & C2 & R2). rewrite E2. cbn [bind]. destruct (latencies_columns f omit w C1 C2) as (l & E3 & A & B). rewrite E3. cbn [bind].
  destruct (reduce_latencies_ok points l Q) as (g & E4 & C4 & _).
  - intro Z. destruct (Nat.eq_dec (nrows f) 0) as [Y|Y]; [rewrite (B (or_introl Y)) in Z; now destruct Z|]. destruct (Nat.eq_dec (nrows w) 0) as [X|X]; [rewrite (B (or_intror X)) in Z; now destruct Z|]. now apply A.
  - rewrite E4. cbn [bind]. now apply grid_latency_columns_ok.
Qed.
Lemma use_missing f cs c : In c cs -> ~ In c (cols f) -> use f cs = Raise KeyError.
Proof.
  intros I N. unfold use. replace (forallb (has f) cs) with false; [reflexivity|]. symmetry. apply not_true_iff_false. rewrite forallb_forall. intro H. apply N, has_in, H, I.
Qed.

(** ** Tracks *)
Lemma orbit_track_columns_ok n m v s a b : n <> 0%nat -> kept n m <> 0%nat -> columns_are (collect_orbit_track n m v s a b) (orbit_track_columns v s a b).
Proof.
  intros N K. unfold collect_orbit_track. destruct (Nat.eqb_spec n 0) as [|_]; [contradiction|]. destruct (Nat.eqb_spec (kept n m) 0) as [|_]; [contradiction|].
  destruct m as [[k c]|], v, s, a, b; apply columns_check; reflexivity.
Qed.
Lemma orbit_track_plain n m : columns_are (collect_orbit_track n m false false false false) (orbit_track_columns false false false false).
Proof.
  unfold collect_orbit_track. destruct (n =? 0)%nat; [apply columns_check; reflexivity|]. destruct (kept n m =? 0)%nat; [apply columns_check; reflexivity|].
  destruct m as [[k c]|]; apply columns_check; reflexivity.
Qed.
Lemma ground_track_columns_ok n m a b : n <> 0%nat -> kept n m <> 0%nat -> columns_are (collect_ground_track n m a b) (ground_track_columns a b).
Proof.
  intros N K. unfold collect_ground_track. destruct (Nat.eqb_spec n 0) as [|_]; [contradiction|]. destruct (Nat.eqb_spec (kept n m) 0) as [|_]; [contradiction|].
  destruct m as [[k c]|], a, b; apply columns_check; reflexivity.
Qed.
Lemma ground_track_plain n m : columns_are (collect_ground_track n m false false) (ground_track_columns false false).
Proof.
  unfold collect_ground_track. destruct (n =? 0)%nat; [apply columns_check; reflexivity|]. destruct (kept n m =? 0)%nat; [apply columns_check; reflexivity|].
  destruct m as [[k c]|]; apply columns_check; reflexivity.
Qed.
Lemma pixels_columns_ok n p m a b : n <> 0%nat -> kept n m <> 0%nat -> columns_are (collect_ground_pixels n p m a b) (ground_track_columns a b).
Proof.
  intros N K. unfold collect_ground_pixels. destruct (Nat.eqb_spec n 0) as [|_]; [contradiction|]. destruct (Nat.eqb_spec (kept n m) 0) as [|_]; [contradiction|].
  destruct m as [[k c]|], a, b; apply columns_check; reflexivity.
Qed.
Lemma pixels_plain n p m : columns_are (collect_ground_pixels n p m false false) (ground_track_columns false false).
Proof.
  unfold collect_ground_pixels. destruct (n =? 0)%nat; [apply columns_check; reflexivity|]. destruct (kept n m =? 0)%nat; [apply columns_check; reflexivity|].
  destruct m as [[k c]|]; apply columns_check; reflexivity.
Qed.
Lemma point_columns n m o d : gives (compute_ground_track_point n m o d) (ground_track_columns false false).
Proof.
  unfold compute_ground_track_point, collect_ground_track, empty. destruct (n =? 0)%nat.
  - destruct d; (eexists; split; [reflexivity|apply columns_check; reflexivity]).
  - destruct (kept n m =? 0)%nat; [destruct d; (eexists; split; [reflexivity|apply columns_check; reflexivity])|].
    destruct m as [[k c]|]; cbn [clip nrows]; (match goal with |- context [(?x =? 0)%nat] => destruct (x =? 0)%nat end); destruct d; (eexists; split; [reflexivity|apply columns_check; reflexivity]).
Qed.
Lemma line_columns n m o d : gives (compute_ground_track_line n m o d) (orbit_track_columns false false false false).
Proof.
  unfold compute_ground_track_line, collect_orbit_track. destruct (n =? 0)%nat.
  - destruct m as [[k c]|], d; (eexists; split; [reflexivity|apply columns_check; reflexivity]).
  - cbn [kept]. destruct (n =? 0)%nat; destruct m as [[k c]|], d; (eexists; split; [reflexivity|apply columns_check; reflexivity]).
Qed.

(** Aggregated observations have no altitude of the satellite. *)
Lemma merge_back l r by_ lon ron f c : merge_asof l r by_ lon ron = Ok f -> In c (cols f) ->
  In c (cols l) \/ In c (cols r) \/ exists d, (In d (cols l) /\ In d (cols r)) /\ (c = (d ++ "_x")%string \/ c = (d ++ "_y")%string).
Proof.
  unfold merge_asof. intro H. destruct (use l [by_; lon]); [|discriminate]. destruct (use r [by_; ron]); [|discriminate]. cbn [bind] in H. injection H as <-. cbn [cols].
  intro I. apply in_app_iff in I. destruct I as [I|I]; apply in_map_iff in I; destruct I as (d & E & I).
  - destruct (has l d && has r d && negb (String.eqb d by_)) eqn:B; [|subst; now left]. apply andb_true_iff in B. destruct B as [B _]. apply andb_true_iff in B. destruct B as [B1 B2].
    right. right. exists d. rewrite <- !has_in. auto.
  - apply filter_In in I. destruct I as [I _]. destruct (has l d && has r d && negb (String.eqb d by_)) eqn:B; [|subst; right; now left]. apply andb_true_iff in B. destruct B as [B _]. apply andb_true_iff in B. destruct B as [B1 B2].
    right. right. exists d. rewrite <- !has_in. auto.
Qed.
Lemma aggregated_latency parts obs omit down f : splits_rows parts -> columns_are obs (observation_columns omit) -> nrows obs <> 0%nat ->
  columns_are down downlink_columns -> nrows down <> 0%nat -> aggregate_observations parts obs = Ok f -> compute_latencies f down = Raise KeyError.
Proof.
  intros P C Z CD ZD E. destruct (aggregate_columns_ok parts obs omit P C) as (g & E' & R & A & _). rewrite E in E'. injection E' as <-. specialize (A Z).
  unfold compute_latencies, empty. destruct (Nat.eqb_spec (nrows f) 0) as [Y|_]; [tauto|]. destruct (Nat.eqb_spec (nrows down) 0) as [Y|_]; [tauto|]. cbn [orb].
  unfold sort_values. rewrite (in_use f _ _ A) by reflexivity. cbn [bind]. rewrite (in_use down _ _ CD) by reflexivity. cbn [bind].
  destruct (merge_asof f down "satellite" "end" "start") as [m|e] eqn:M.
  - cbn [bind]. destruct (merge_spec _ _ _ _ _ _ M) as (_ & _ & _ & MB).
    destruct (MB "epoch") as [EX EY]; [apply (proj2 A); cbn; tauto|apply (proj2 CD); cbn; tauto|discriminate|].
    rewrite use_ok by (intros c [<-|[<-|[]]]; assumption). cbn [bind]. unfold select. rewrite (use_missing _ _ "sat_alt"); [reflexivity|cbn; tauto|].
    intro I. cbn [rename cols] in I. apply in_map_iff in I. destruct I as (c & K & I).
    assert (J : In c (cols m) \/ c = "latency").
    { unfold assign in I. destruct (has m "latency"); [now left|]. cbn in I. apply in_app_iff in I. destruct I as [I|[<-|[]]]; [now left|now right]. }
    assert (Q : c = "sat_alt" \/ c = "sat_alt_x").
    { cbn [find fst snd] in K.
      destruct (String.eqb_spec "station_y" c) as [X|X]; [subst c; cbn in K; discriminate|clear X]. destruct (String.eqb_spec "epoch_y" c) as [X|X]; [subst c; cbn in K; discriminate|clear X].
      destruct (String.eqb_spec "epoch_x" c) as [X|X]; [subst c; cbn in K; discriminate|clear X]. destruct (String.eqb_spec "geometry_x" c) as [X|X]; [subst c; cbn in K; discriminate|clear X].
      destruct (String.eqb_spec "sat_alt_x" c) as [X|X]; [subst c; now right|clear X]. destruct (String.eqb_spec "sat_az_x" c) as [X|X]; [subst c; cbn in K; discriminate|clear X]. now left. }
    destruct J as [J| ->]; [|destruct Q; discriminate].
    assert (NA : forall d, In d (cols f) -> In d aggregate_columns) by (intro d; apply (proj2 A)). assert (NDn : forall d, In d (cols down) -> In d downlink_columns) by (intro d; apply (proj2 CD)).
    destruct (merge_back _ _ _ _ _ _ _ M J) as [H|[H|(d & [H _] & H')]].
    + apply NA in H. cbn in H. destruct Q; subst; intuition discriminate.
    + apply NDn in H. cbn in H. destruct Q; subst; intuition discriminate.
    + apply NA in H. cbn in H. destruct Q; subst; destruct H' as [H'|H']; repeat (destruct H as [<-|H]; [discriminate|]); destruct H.
  - unfold merge_asof in M. rewrite (in_use f _ _ A) in M by reflexivity. cbn [bind] in M. rewrite (in_use down _ _ CD) in M by reflexivity. discriminate.
Qed.
