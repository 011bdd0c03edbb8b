(** Frames as objects: proofs. *)
From Coq Require Import String List Bool Arith Lia.
From Verif Require Import Base Pure_Model Pure_Spec.
Import ListNotations.
Open Scope string_scope.
Open Scope list_scope.

Section Proofs.
Variable F : Type.
Variable pd : op -> list F -> pyres F.
Variable groups : op -> F -> pyres (list F).
Variable is_empty : F -> bool.
Variable some_missing : F -> bool.
Variables empty_aggregate empty_reduce empty_latency empty_latency_reduce : F.
Notation heap := (heap F). Notation next := (next F). Notation at_ := (at_ F). Notation alloc := (alloc F). Notation write := (write F).
Notation M := (M F). Notation seq := (seq F). Notation new := (new F pd). Notation inplace := (inplace F pd). Notation copy := (copy F).
Notation literal := (literal F). Notation test := (test F). Notation ret := (ret F). Notation untouched := (untouched F).
Notation then_ := (then_ F pd).

Lemma next_alloc h f : next (alloc h f) = S (next h). Proof. reflexivity. Qed.
Lemma next_write h a f : next (write h a f) = next h. Proof. reflexivity. Qed.
Lemma at_alloc h f : at_ (alloc h f) (next h) = f. Proof. cbn. now rewrite Nat.eqb_refl. Qed.
Lemma at_alloc_old h f a : a < next h -> at_ (alloc h f) a = at_ h a.
Proof. intro H. cbn. destruct (Nat.eqb_spec a (next h)); [lia|reflexivity]. Qed.
Lemma at_write h a f : at_ (write h a f) a = f. Proof. cbn. now rewrite Nat.eqb_refl. Qed.
Lemma at_write_other h a f b : b <> a -> at_ (write h a f) b = at_ h b.
Proof. intro H. cbn. destruct (Nat.eqb_spec b a); [contradiction|reflexivity]. Qed.
Lemma untouched_refl h : untouched h h. Proof. split; auto. Qed.
Lemma untouched_trans h1 h2 h3 : untouched h1 h2 -> untouched h2 h3 -> untouched h1 h3.
Proof. intros [A B] [C D]. split; [lia|]. intros a H. rewrite D by lia. now apply B. Qed.
Lemma untouched_alloc h0 h f : untouched h0 h -> untouched h0 (alloc h f).
Proof. intros [A B]. split; [rewrite next_alloc; lia|]. intros a H. rewrite at_alloc_old by lia. now apply B. Qed.
Lemma untouched_write h0 h a f : untouched h0 h -> next h0 <= a -> untouched h0 (write h a f).
Proof. intros [A B] C. split; [exact A|]. intros b H. rewrite at_write_other by lia. now apply B. Qed.

Definition runs (h0 : heap) (m : M nat) (h : heap) (v : pyres F) : Prop :=
  let (r, h') := m h in untouched h0 h' /\
  match r with Ok b => next h0 <= b < next h' /\ v = Ok (at_ h' b) | Raise e => v = Raise e end.
Lemma runs_pure m h v : runs h m h v -> pure_call F m h v. Proof. exact (fun H => H). Qed.
Lemma runs_ret h0 h b v : untouched h0 h -> next h0 <= b < next h -> v = Ok (at_ h b) -> runs h0 (ret b) h v.
Proof. intros. unfold runs, Pure_Model.ret. auto. Qed.
Lemma runs_new h0 h o args fs k vk : untouched h0 h -> map (at_ h) args = fs ->
  (forall f, pd o fs = Ok f -> runs h0 (k (next h)) (alloc h f) (vk f)) ->
  runs h0 (seq (new o args) k) h (bind (pd o fs) vk).
Proof.
  intros U <- H. unfold runs, Pure_Model.seq, Pure_Model.new. destruct (pd o (map (at_ h) args)) as [f|e] eqn:E; cbn [bind].
  - exact (H f eq_refl).
  - split; auto.
Qed.
Lemma runs_last h0 h o args fs : untouched h0 h -> map (at_ h) args = fs -> runs h0 (new o args) h (bind (pd o fs) (then_ [])).
Proof.
  intros U <-. unfold runs, Pure_Model.new. destruct (pd o (map (at_ h) args)) as [f|e] eqn:E; cbn [bind Pure_Spec.then_].
  - split; [now apply untouched_alloc|]. rewrite at_alloc. split; [rewrite next_alloc; destruct U; lia|reflexivity].
  - split; auto.
Qed.
Lemma runs_inplace h0 h o a f0 k vk : untouched h0 h -> next h0 <= a -> at_ h a = f0 ->
  (forall f, pd o [f0] = Ok f -> runs h0 k (write h a f) (vk f)) ->
  runs h0 (seq (inplace o a) (fun _ => k)) h (bind (pd o [f0]) vk).
Proof.
  intros U L <- H. unfold runs, Pure_Model.seq, Pure_Model.inplace. destruct (pd o [at_ h a]) as [f|e] eqn:E; cbn [bind].
  - exact (H f eq_refl).
  - split; auto.
Qed.
Lemma runs_copy h0 h a k v : runs h0 (k (next h)) (alloc h (at_ h a)) v -> runs h0 (seq (copy a) k) h v.
Proof. exact (fun H => H). Qed.
Lemma runs_test h0 h p a k v : runs h0 (k (p (at_ h a))) h v -> runs h0 (seq (test p a) k) h v.
Proof. exact (fun H => H). Qed.
Lemma runs_literal h0 h f : untouched h0 h -> runs h0 (literal f) h (Ok f).
Proof.
  intro U. unfold runs, Pure_Model.literal. split; [now apply untouched_alloc|]. rewrite at_alloc. split; [rewrite next_alloc; destruct U; lia|reflexivity].
Qed.

(** Symbolic execution. *)
Ltac look := repeat first
  [ rewrite at_alloc | rewrite at_write
  | rewrite at_write_other by (cbn [Pure_Model.next Pure_Model.alloc Pure_Model.write] in *; lia)
  | rewrite at_alloc_old by (cbn [Pure_Model.next Pure_Model.alloc Pure_Model.write] in *; lia) ].
Ltac unt := repeat first [ assumption | apply untouched_refl | apply untouched_alloc | apply untouched_write ]; try (cbn [Pure_Model.next Pure_Model.alloc Pure_Model.write] in *; lia).
Ltac goes := first
  [ apply runs_test
  | apply runs_copy
  | eapply runs_new; [solve [unt]|cbn [map]; look; reflexivity|intros ? ?]
  | eapply runs_last; [solve [unt]|cbn [map]; look; reflexivity]
  | eapply runs_inplace; [solve [unt]|cbn [Pure_Model.next Pure_Model.alloc Pure_Model.write]; lia|look; reflexivity|intros ? ?]
  | apply runs_literal; solve [unt]
  | apply runs_ret; [solve [unt]|cbn [Pure_Model.next Pure_Model.alloc Pure_Model.write]; lia|cbn [Pure_Spec.then_]; look; reflexivity] ].

Lemma group_pure h g : g < next h -> pure_call F (aggregate_group F pd g) h
  (then_ [SortValues "start"; SetColumn "obs" "cumsum"; Dissolve "obs"; SetColumn "access" "end - start"; SetColumn "revisit" "start - shifted end"] (at_ h g)).
Proof. intro V. apply runs_pure. unfold aggregate_group. repeat (cbn [Pure_Spec.then_]; goes). Qed.
Lemma reduce_pure h a : a < next h -> pure_call F (reduce_observations F pd is_empty empty_reduce a) h (val_reduce F pd is_empty empty_reduce (at_ h a)).
Proof.
  intro V. apply runs_pure. unfold reduce_observations, val_reduce. goes. destruct (is_empty (at_ h a)); repeat (cbn [Pure_Spec.then_]; goes).
Qed.
Lemma reduce_latencies_pure h a : a < next h -> pure_call F (reduce_latencies F pd is_empty empty_latency_reduce a) h (val_reduce_latencies F pd is_empty empty_latency_reduce (at_ h a)).
Proof.
  intro V. apply runs_pure. unfold reduce_latencies, val_reduce_latencies. goes. destruct (is_empty (at_ h a)); repeat (cbn [Pure_Spec.then_]; goes).
Qed.
Lemma bind_assoc {A B C} (x : pyres A) (f : A -> pyres B) (g : B -> pyres C) : bind (bind x f) g = bind x (fun a => bind (f a) g).
Proof. destruct x; reflexivity. Qed.
Lemma bind_ok {A} (x : pyres A) : bind x (fun a => Ok a) = x. Proof. destruct x; reflexivity. Qed.
Lemma grid_pure h a c : a < next h -> c < next h -> pure_call F (grid_observations F pd is_empty a c) h (val_grid F pd is_empty (at_ h a) (at_ h c)).
Proof.
  intros V W. apply runs_pure. unfold grid_observations, val_grid. goes. destruct (is_empty (at_ h a)); [repeat (cbn [Pure_Spec.then_]; goes)|].
  cbn [Pure_Spec.then_]. goes. rewrite bind_assoc. goes. rewrite bind_assoc. goes. cbn [bind]. goes. goes. repeat (cbn [Pure_Spec.then_]; goes).
Qed.
Lemma grid_latencies_pure h a c : a < next h -> c < next h -> pure_call F (grid_latencies F pd is_empty a c) h (val_grid_latencies F pd is_empty (at_ h a) (at_ h c)).
Proof.
  intros V W. apply runs_pure. unfold grid_latencies, val_grid_latencies. goes. destruct (is_empty (at_ h a)); [repeat (cbn [Pure_Spec.then_]; goes)|].
  cbn [Pure_Spec.then_]. goes. rewrite bind_assoc. goes. cbn [bind]. goes. goes. repeat (cbn [Pure_Spec.then_]; goes).
Qed.
Lemma latencies_pure h a d : a < next h -> d < next h ->
  pure_call F (compute_latencies F pd is_empty some_missing empty_latency a d) h (val_latencies F pd is_empty some_missing empty_latency (at_ h a) (at_ h d)).
Proof.
  intros V W. apply runs_pure. unfold compute_latencies, val_latencies. goes. destruct (is_empty (at_ h a)); cbn [orb].
  { unfold Pure_Model.seq at 1. unfold Pure_Model.ret at 1. unfold runs. cbn. apply (runs_literal h h empty_latency). unt. }
  goes. destruct (is_empty (at_ h d)); [goes|]. goes. goes. goes. cbn [Pure_Spec.then_].
  rewrite bind_assoc. goes. rewrite bind_assoc. goes. rewrite bind_assoc. goes. cbn [bind]. goes. look.
  match goal with |- context [some_missing ?x] => destruct (some_missing x) end.
  - goes. repeat (cbn [Pure_Spec.then_]; goes).
  - cbn [bind]. match goal with |- runs ?h0 (Pure_Model.seq _ (Pure_Model.ret _ tt) ?k) ?h' ?v => change (runs h0 (k tt) h' v) end. cbv beta.
    repeat (cbn [Pure_Spec.then_]; goes).
Qed.
(** ** The loop of aggregate_observations *)
Lemma allocs_spec fs : forall h, let (l, h') := allocs F h fs in
  untouched h h' /\ Forall (fun a => next h <= a < next h') l /\ map (at_ h') l = fs.
Proof.
  induction fs as [|f fs IH]; intro h; cbn [allocs]; [split; [apply untouched_refl|split; [constructor|reflexivity]]|].
  specialize (IH (alloc h f)). destruct (allocs F (alloc h f) fs) as [l h']. destruct IH as [U [V E]]. rewrite next_alloc in V.
  pose proof U as [U1 U2]. rewrite next_alloc in U1, U2.
  split; [|split].
  - eapply untouched_trans; [|exact U]. apply untouched_alloc, untouched_refl.
  - constructor; [lia|]. eapply Forall_impl; [|exact V]. cbn. intros; lia.
  - cbn [map]. rewrite E. f_equal. rewrite U2 by lia. apply at_alloc.
Qed.
Lemma map_untouched h h' l : untouched h h' -> Forall (fun a => a < next h) l -> map (at_ h') l = map (at_ h) l.
Proof. intros [_ U] V. induction V; [reflexivity|]. cbn [map]. rewrite U by assumption. now f_equal. Qed.
Lemma each_spec (f : nat -> M nat) (v : F -> pyres F) : (forall h g, g < next h -> pure_call F (f g) h (v (at_ h g))) ->
  forall l h, Forall (fun a => a < next h) l -> let (r, h') := each F f l h in untouched h h' /\
  match r with
  | Ok bs => Forall (fun b => next h <= b < next h') bs /\ mapM v (map (at_ h) l) = Ok (map (at_ h') bs)
  | Raise e => mapM v (map (at_ h) l) = Raise e
  end.
Proof.
  intros P l. induction l as [|x l IH]; intros h V; cbn [each map mapM].
  - unfold Pure_Model.ret. split; [apply untouched_refl|]. split; [constructor|reflexivity].
  - inversion V as [|? ? V1 V2]; subst. unfold Pure_Model.seq at 1. pose proof (P h x V1) as Q. unfold pure_call in Q. destruct (f x h) as [r h1].
    destruct Q as [U Q]. destruct r as [b|e]; [|rewrite Q; cbn [bind]; auto]. destruct Q as [B Q]. rewrite Q. cbn [bind].
    unfold Pure_Model.seq at 1. pose proof U as [U1 U2]. assert (V3 : Forall (fun a => a < next h1) l) by (eapply Forall_impl; [|exact V2]; cbn; intros; lia).
    specialize (IH h1 V3). rewrite (map_untouched h h1 l U V2) in IH. destruct (each F f l h1) as [r h2]. destruct IH as [W IH].
    pose proof (untouched_trans _ _ _ U W) as UW. destruct r as [bs|e]; [|rewrite IH; cbn [bind]; auto]. destruct IH as [C IH]. rewrite IH. cbn [bind].
    unfold Pure_Model.ret. pose proof W as [W1 W2]. split; [exact UW|]. split.
    + constructor; [lia|]. eapply Forall_impl; [|exact C]. cbn. intros; lia.
    + cbn [map]. now rewrite W2 by lia.
Qed.
Lemma aggregate_pure h a : a < next h -> pure_call F (aggregate_observations F pd groups is_empty empty_aggregate a) h (val_aggregate F pd groups is_empty empty_aggregate (at_ h a)).
Proof.
  intro V. apply runs_pure. unfold aggregate_observations, val_aggregate. goes. destruct (is_empty (at_ h a)); [goes|].
  unfold runs, Pure_Model.seq at 1, new_groups. destruct (groups (GroupBy "point_id") (at_ h a)) as [fs|e]; cbn [bind]; [|split; [apply untouched_refl|reflexivity]].
  pose proof (allocs_spec fs h) as A. destruct (allocs F h fs) as [l h1]. destruct A as [U [A E]]. unfold Pure_Model.seq at 1.
  assert (A' : Forall (fun a => a < next h1) l) by (eapply Forall_impl; [|exact A]; cbn; intros; lia).
  pose proof (each_spec _ _ group_pure l h1 A') as Q. rewrite E in Q. destruct (each F (aggregate_group F pd) l h1) as [r h2]. destruct Q as [W Q].
  pose proof (untouched_trans _ _ _ U W) as UW. destruct r as [bs|e].
  - destruct Q as [B Q]. rewrite Q. cbn [bind]. match goal with |- let (r, h') := ?m h2 in _ => change (runs h m h2 (bind (pd Concat (map (at_ h2) bs)) (then_ [ResetIndex]))) end.
    eapply runs_new; [exact UW|reflexivity|]. intros f _. cbn [Pure_Spec.then_]. eapply runs_last; [now apply untouched_alloc|cbn [map]; look; reflexivity].
  - rewrite Q. cbn [bind]. split; [exact UW|reflexivity].
Qed.
(** ** Sessions *)
Notation step := (step F pd groups is_empty some_missing empty_aggregate empty_reduce empty_latency empty_latency_reduce).
Notation session := (session F pd groups is_empty some_missing empty_aggregate empty_reduce empty_latency empty_latency_reduce).
Notation separate := (separate F). Notation content := (content F).
(** One step that leaves the old frames but one alone. *)
Definition grows (e : option nat) (s s' : list nat * heap) : Prop :=
  separate s' /\ (exists l, fst s' = fst s ++ l) /\ forall i, i < length (fst s) -> Some i <> e -> content s' i = content s i.
Lemma grows_refl s : separate s -> grows None s s.
Proof. intro S. split; auto. split; [exists []; now rewrite app_nil_r|auto]. Qed.
Lemma grows_call env h (m : M nat) v : separate (env, h) -> pure_call F m h v ->
  grows None (env, h) (match m h with (Ok b, h') => (env ++ [b], h') | (Raise _, h') => (env, h') end).
Proof.
  intros [N A] P. cbn [fst snd] in *. unfold pure_call in P. destruct (m h) as [r h']. destruct P as [U P]. pose proof U as [U1 U2].
  assert (A' : Forall (fun a => a < next h') env) by (eapply Forall_impl; [|exact A]; cbn; intros; lia).
  assert (C : forall i, i < length env -> option_map (at_ h') (nth_error env i) = option_map (at_ h) (nth_error env i)).
  { intros i L. destruct (nth_error env i) as [a|] eqn:E; [|reflexivity]. cbn. f_equal. apply U2.
    rewrite Forall_forall in A. apply A. eapply nth_error_In; eauto. }
  destruct r as [b|e]; unfold grows; cbn [fst snd].
  - destruct P as [B _]. split; [|split].
    + split; cbn [fst snd].
      * apply NoDup_rev in N. rewrite <- (rev_involutive (env ++ [b])). apply NoDup_rev. rewrite rev_app_distr. cbn. constructor; auto.
        rewrite <- in_rev. intro I. rewrite Forall_forall in A. specialize (A _ I). lia.
      * apply Forall_app. split; auto. constructor; [lia|constructor].
    + now exists [b].
    + intros i L _. unfold Pure_Spec.content. cbn [fst snd]. rewrite nth_error_app1 by lia. now apply C.
  - split; [split; assumption|]. split; [exists []; now rewrite app_nil_r|]. intros i L _. unfold Pure_Spec.content. cbn [fst snd]. now apply C.
Qed.
Lemma separate_in env h i a : separate (env, h) -> nth_error env i = Some a -> a < next h.
Proof. intros [_ A] E. cbn in A. rewrite Forall_forall in A. apply A. eapply nth_error_In; eauto. Qed.
Lemma step_grows c s : separate s -> ~ normalizes c -> exists e, (forall i, e = Some i -> edits i c) /\ grows e s (step c s).
Proof.
  destruct s as [env h]. intros S N. assert (NE : forall (c : call) i, None = Some i -> edits i c) by discriminate.
  destruct c; cbn [Pure_Model.step].
  1,2,5: exists None; split; [apply NE|]; unfold call1; destruct (nth_error env i) as [a|] eqn:E; [|now apply grows_refl];
    pose proof (separate_in _ _ _ _ S E) as V; eapply grows_call; [exact S|].
  1: now apply aggregate_pure. 1: now apply reduce_pure. 1: now apply reduce_latencies_pure.
  1,2,3: exists None; split; [apply NE|]; unfold call2; destruct (nth_error env i) as [a|] eqn:E; [|now apply grows_refl];
    match goal with |- context [nth_error ?e ?j] => destruct (nth_error e j) as [b|] eqn:E2; [|now apply grows_refl] end;
    pose proof (separate_in _ _ _ _ S E) as V; pose proof (separate_in _ _ _ _ S E2) as V2; eapply grows_call; [exact S|].
  1: now apply grid_pure. 1: now apply latencies_pure. 1: now apply grid_latencies_pure.
  - exfalso. apply N. now exists i.
  - destruct (nth_error env i) as [a|] eqn:E; [|exists None; split; [apply NE|now apply grows_refl]].
    exists (Some i). split; [intros j [= <-]; now exists k|]. unfold Pure_Model.inplace. destruct (pd (UserEdit k) [at_ h a]) as [f|ex]; cbn [snd].
    + destruct S as [S1 S2]. split; [split; assumption|]. split; [exists []; now rewrite app_nil_r|]. intros j L D. unfold Pure_Spec.content. cbn [fst snd].
      destruct (nth_error env j) as [b|] eqn:Ej; [|reflexivity]. cbn [option_map]. f_equal. apply at_write_other. intro X. subst b. apply D. f_equal.
      cbn [fst] in *. rewrite NoDup_nth_error in S1. apply S1; [exact L|congruence].
    + split; auto. split; [exists []; now rewrite app_nil_r|]. auto.
Qed.
Lemma session_lemma cs : forall s, separate s -> Forall (fun c => ~ normalizes c) cs ->
  separate (session cs s) /\ (exists l, fst (session cs s) = fst s ++ l)
  /\ forall i, i < length (fst s) -> Forall (fun c => ~ edits i c) cs -> content (session cs s) i = content s i.
Proof.
  induction cs as [|c cs IH]; intros s S N.
  - cbn. split; auto. split; [exists []; now rewrite app_nil_r|auto].
  - inversion N as [|? ? N1 N2]; subst. destruct (step_grows c s S N1) as [e [E [G1 [[l G2] G3]]]]. destruct (IH _ G1 N2) as [I1 [[l' I2] I3]].
    change (session (c :: cs) s) with (session cs (step c s)). split; auto. split; [exists (l ++ l'); rewrite I2, G2; now rewrite app_assoc|].
    intros i L D. inversion D as [|? ? D1 D2]; subst. rewrite I3; [|rewrite G2, app_length; lia|exact D2]. apply G3; [exact L|]. intros X. apply D1. apply E. auto.
Qed.
(** A call later in the session on unedited frames gives what it would have given at once. *)
Lemma again_lemma cs s i : separate s -> Forall (fun c => ~ normalizes c) cs -> i < length (fst s) -> Forall (fun c => ~ edits i c) cs ->
  exists a, nth_error (fst s) i = Some a /\ nth_error (fst (session cs s)) i = Some a /\ a < next (snd s) /\ a < next (snd (session cs s))
    /\ at_ (snd (session cs s)) a = at_ (snd s) a.
Proof.
  intros S N L D. destruct (session_lemma cs s S N) as [S' [[l E] C]]. specialize (C i L D).
  destruct (nth_error (fst s) i) as [a|] eqn:Ea; [|apply nth_error_None in Ea; lia]. exists a.
  assert (E2 : nth_error (fst (session cs s)) i = Some a) by (rewrite E, nth_error_app1; auto).
  split; auto. split; auto. split; [destruct s; eapply separate_in; eauto|]. split; [destruct (session cs s); eapply separate_in; eauto|].
  unfold Pure_Spec.content in C. rewrite E2, Ea in C. cbn in C. now inversion C.
Qed.
(** The contents of the frame that a call adds. *)
Definition value (c : call) (s : list nat * heap) : option (pyres F) :=
  let one i (f : F -> pyres F) := option_map f (content s i) in
  let two i j (f : F -> F -> pyres F) := match content s i, content s j with Some x, Some y => Some (f x y) | _, _ => None end in
  match c with
  | Aggregate i => one i (val_aggregate F pd groups is_empty empty_aggregate)
  | Reduce i => one i (val_reduce F pd is_empty empty_reduce)
  | Grid i j => two i j (val_grid F pd is_empty)
  | Latencies i j => two i j (val_latencies F pd is_empty some_missing empty_latency)
  | ReduceLatencies i => one i (val_reduce_latencies F pd is_empty empty_latency_reduce)
  | GridLatencies i j => two i j (val_grid_latencies F pd is_empty)
  | _ => None
  end.
Lemma added env h (m : M nat) v : pure_call F m h v ->
  content (match m h with (Ok b, h') => (env ++ [b], h') | (Raise _, h') => (env, h') end) (length env) = match v with Ok f => Some f | Raise _ => None end.
Proof.
  unfold pure_call. destruct (m h) as [r h']. intros [_ P]. unfold Pure_Spec.content. destruct r as [b|e]; cbn [fst snd].
  - destruct P as [_ ->]. rewrite nth_error_app2, Nat.sub_diag by lia. reflexivity.
  - rewrite P. assert (E : nth_error env (length env) = None) by (apply nth_error_None; lia). now rewrite E.
Qed.
Lemma not_added env h : content (env, h) (length env) = None.
Proof. unfold Pure_Spec.content. cbn [fst snd]. assert (E : nth_error env (length env) = None) by (apply nth_error_None; lia). now rewrite E. Qed.
Lemma content_eq env h i : content (env, h) i = option_map (at_ h) (nth_error env i). Proof. reflexivity. Qed.
Lemma result_value c s : separate s -> ~ normalizes c ->
  content (step c s) (length (fst s)) = match value c s with Some (Ok f) => Some f | _ => None end.
Proof.
  destruct s as [env h]. intros S N. destruct c; cbn [Pure_Model.step fst]; unfold value; rewrite ?content_eq.
  1,2,5: unfold call1; destruct (nth_error env i) as [a|] eqn:E; [|apply not_added];
    pose proof (separate_in _ _ _ _ S E) as V; cbn [option_map]; apply added.
  1: now apply aggregate_pure. 1: now apply reduce_pure. 1: now apply reduce_latencies_pure.
  1,2,3: unfold call2; destruct (nth_error env i) as [a|] eqn:E; [|apply not_added]; cbn [option_map];
    match goal with |- context [nth_error ?e ?j] => destruct (nth_error e j) as [b|] eqn:E2; [|apply not_added] end;
    pose proof (separate_in _ _ _ _ S E) as V; pose proof (separate_in _ _ _ _ S E2) as V2; cbn [option_map]; apply added.
  1: now apply grid_pure. 1: now apply latencies_pure. 1: now apply grid_latencies_pure.
  - exfalso. apply N. now exists i.
  - destruct (nth_error env i); apply not_added.
Qed.
Lemma later_lemma cs s c : separate s -> Forall (fun c => ~ normalizes c) (c :: cs) ->
  Forall (fun i => i < length (fst s) /\ Forall (fun c => ~ edits i c) cs) (operands c) ->
  content (step c (session cs s)) (length (fst (session cs s))) = content (step c s) (length (fst s)).
Proof.
  intros S N A. inversion N as [|? ? N1 N2]; subst. destruct (session_lemma cs s S N2) as [S' [_ C]].
  rewrite !result_value by assumption. assert (V : value c (session cs s) = value c s); [|now rewrite V].
  assert (Q : Forall (fun i => content (session cs s) i = content s i) (operands c)).
  { eapply Forall_impl; [|exact A]. cbn. intros i [L D]. now apply C. }
  destruct c; cbn [operands] in Q; unfold value; try reflexivity; inversion Q as [|? ? Q1 Q2]; subst; rewrite Q1; try reflexivity;
    inversion Q2 as [|? ? Q3 Q4]; subst; now rewrite Q3.
Qed.
Lemma normalize_lemma h a f : pd SplitGeometry [at_ h a] = Ok f -> a < next h ->
  exists h', normalize_frame F pd a h = (Ok a, h') /\ at_ h' a = f /\ (forall b, b <> a -> at_ h' b = at_ h b) /\ next h' = next h.
Proof.
  intros E V. unfold normalize_frame, Pure_Model.seq, Pure_Model.inplace. rewrite E. unfold Pure_Model.ret. eexists. split; [reflexivity|].
  split; [apply at_write|]. split; [intros; now apply at_write_other|reflexivity].
Qed.
End Proofs.
