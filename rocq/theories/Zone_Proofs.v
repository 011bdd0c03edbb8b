(** Proofs about datetimes in time zones. *)
From Coq Require Import ZArith List Bool Lia.
From Verif Require Import Base BaseFacts Coverage_Model Epoch_Model Zone_Model Zone_Spec.
Import ListNotations.
Open Scope Z_scope.

Lemma mapM_map_ok {A B} (f : A -> pyres B) (g : A -> B) l :
  (forall x, In x l -> f x = Ok (g x)) -> mapM f l = Ok (map g l).
Proof.
  induction l as [|x r IH]; intros H; [reflexivity|]. simpl. rewrite (H x (or_introl eq_refl)). simpl.
  rewrite IH; [reflexivity|]. intros y Hy. apply H. now right.
Qed.
Lemma mapM_forall2 {A B} (f : A -> pyres B) l ys : Forall2 (fun x y => f x = Ok y) l ys -> mapM f l = Ok ys.
Proof. intros H. now apply mapM_ok. Qed.
Lemma mapM_raise {A B} (f : A -> pyres B) l x e : In x l -> f x = Raise e -> forall ys, mapM f l <> Ok ys.
Proof.
  intros Hx E ys H. apply mapM_ok in H. revert ys H. induction l as [|y r IH]; intros ys H; [destruct Hx|].
  inversion H; subst. destruct Hx as [->|Hx]; [congruence|]. now apply (IH Hx l').
Qed.

Lemma sub_utc a t u : denotes a t -> dt_sub a (utc_dt u) = Ok (t - u).
Proof.
  intros (z & Hz & Hw & Hu). unfold dt_sub. rewrite Hz. cbn [utc_dt d_zone d_wall utc z_id z_off].
  destruct (z_id z =? 0) eqn:E; f_equal.
  - apply Z.eqb_eq in E. rewrite (Hu E) in Hw. lia.
  - lia.
Qed.
Lemma utc_sub a t u : denotes a t -> dt_sub (utc_dt u) a = Ok (u - t).
Proof.
  intros (z & Hz & Hw & Hu). unfold dt_sub. rewrite Hz. cbn [utc_dt d_zone d_wall utc z_id z_off].
  destruct (0 =? z_id z) eqn:E; f_equal.
  - apply Z.eqb_eq in E. symmetry in E. rewrite (Hu E) in Hw. lia.
  - lia.
Qed.
Lemma lt_utc a t u : denotes a t -> dt_lt a (utc_dt u) = Ok (t <? u).
Proof. intros H. unfold dt_lt. rewrite (sub_utc a t u H). simpl. f_equal. destruct (Z.ltb_spec (t - u) 0), (Z.ltb_spec t u); trivial; lia. Qed.
Lemma utc_lt a t u : denotes a t -> dt_lt (utc_dt u) a = Ok (u <? t).
Proof. intros H. unfold dt_lt. rewrite (utc_sub a t u H). simpl. f_equal. destruct (Z.ltb_spec (u - t) 0), (Z.ltb_spec u t); trivial; lia. Qed.
Lemma utc_le a t u : denotes a t -> dt_le (utc_dt u) a = Ok (u <=? t).
Proof. intros H. unfold dt_le. rewrite (utc_sub a t u H). simpl. f_equal. destruct (Z.leb_spec (u - t) 0), (Z.leb_spec u t); trivial; lia. Qed.
Lemma from_denotes a t : denotes a t -> from_datetime a = Ok t.
Proof. intros (z & Hz & Hw & _). unfold from_datetime. rewrite Hz. f_equal. lia. Qed.
Lemma utc_denotes t : denotes (utc_dt t) t.
Proof. exists utc. cbn. repeat split; lia. Qed.

Lemma from_all l ts : Forall2 denotes l ts -> Forall2 (fun x y => from_datetime x = Ok y) l ts.
Proof. induction 1; constructor; [now apply from_denotes|assumption]. Qed.

Lemma filter_id_map {A} (f : A -> bool) l : length (filter (fun b => b) (map f l)) = length (filter f l).
Proof. induction l as [|x r IH]; [reflexivity|]. simpl. destruct (f x); simpl; now rewrite IH. Qed.

Lemma closest_denotes es a t : denotes a t -> closest_dt es a = Ok (closest es t).
Proof.
  intros H. unfold closest_dt.
  rewrite (mapM_map_ok _ (fun e => e <? t)) by (intros; now apply utc_lt). cbn [bind].
  rewrite filter_id_map. unfold closest, searchsorted.
  set (i := length (filter (fun e : Z => e <? t) es)).
  destruct (Nat.ltb 0 i); [|reflexivity]. cbn [andb].
  destruct (Nat.eqb i (length es)); [reflexivity|]. cbn [orb].
  rewrite !(sub_utc a t _ H). reflexivity.
Qed.

Lemma mask_filter {A} (f : A -> bool) l : map snd (filter fst (combine (map f l) l)) = filter f l.
Proof. induction l as [|x r IH]; [reflexivity|]. simpl. destruct (f x); simpl; now rewrite IH. Qed.

Lemma within_denotes s e ts te u : denotes s ts -> denotes e te ->
  within_dt s e u = Ok ((ts <? u) && (u <? te)).
Proof.
  intros Hs He. unfold within_dt. rewrite (lt_utc s ts u Hs). cbn [bind].
  destruct (ts <? u); [|reflexivity]. now rewrite (utc_lt e te u He).
Qed.

Lemma partition_denotes argsort es s e ts te : denotes s ts -> denotes e te ->
  exists l, partition_dt argsort es s e = Ok (l, snd (partition_by_tle_index argsort es ts te))
    /\ Forall2 denotes l (fst (partition_by_tle_index argsort es ts te)).
Proof.
  intros Hs He. unfold partition_dt, partition_by_tle_index.
  destruct (Nat.leb (length es) 1).
  { exists [s; e]. split; [reflexivity|]. simpl. now repeat constructor. }
  rewrite (mapM_map_ok _ (fun p : nat * Z => (ts <? snd p) && (snd p <? te))) by (intros; now apply within_denotes).
  cbn [bind]. rewrite mask_filter. rewrite (closest_denotes es s ts Hs), (closest_denotes es e te He). cbn [bind fst snd].
  eexists. split; [reflexivity|]. constructor; [assumption|]. apply Forall2_app; [|now repeat constructor].
  induction (filter _ _) as [|p r IH]; constructor; [apply utc_denotes|exact IH].
Qed.

Lemma track_denotes es tr c l ts : Forall2 denotes l ts ->
  orbit_track_dt es tr c l = Ok (orbit_track es tr c ts).
Proof.
  intros H. unfold orbit_track_dt, orbit_track.
  assert (Hf : mapM from_datetime l = Ok ts).
  { apply mapM_forall2. now apply from_all. }
  destruct (Nat.ltb 1 (length es)).
  - rewrite (mapM_forall2 _ l (map (closest es) ts)).
    + cbn [bind]. rewrite Hf. reflexivity.
    + clear Hf. induction H; constructor; [now apply closest_denotes|assumption].
  - rewrite Hf. cbn [bind]. destruct tr, c as [c|]; try reflexivity. apply mapM_forall2. clear Hf.
    induction H as [|a t l ts Ha _ IH]; constructor; [|exact IH].
    rewrite (sub_utc a t _ Ha). cbn [bind]. unfold dt_add, from_datetime, fold_time. cbn. do 2 f_equal. lia.
Qed.

Section Events.
Variable find_events : nat -> Z -> Z -> list Z * list Z.
Variable argsort : list Z -> list nat.

Lemma multi_denotes l ts is : Forall2 denotes l ts ->
  multi_events_dt find_events (l, is) = Ok (multi_events find_events (ts, is)).
Proof.
  intros H. unfold multi_events_dt. cbn [fst snd]. rewrite (mapM_forall2 _ l ts); [reflexivity|].
  now apply from_all.
Qed.

Lemma events_many es tr c s e ts te : (1 < length es)%nat -> denotes s ts -> denotes e te ->
  events_dt find_events argsort es tr c s e = Ok (get_observation_events find_events argsort es tr c ts te).
Proof.
  intros Hl Hs He. unfold events_dt, get_observation_events. apply Nat.ltb_lt in Hl. rewrite Hl.
  destruct (partition_denotes argsort es s e ts te Hs He) as (l & -> & H2). cbn [bind].
  destruct (partition_by_tle_index argsort es ts te) as [us is]. cbn [fst snd] in *. now apply multi_denotes.
Qed.
Lemma events_plain es tr c s e ts te : tr = false \/ c = None -> denotes s ts -> denotes e te ->
  events_dt find_events argsort es tr c s e = Ok (get_observation_events find_events argsort es tr c ts te).
Proof.
  intros Hc Hs He. destruct (Nat.ltb 1 (length es)) eqn:E.
  - apply Nat.ltb_lt in E. now apply events_many.
  - unfold events_dt, get_observation_events. rewrite E, (from_denotes s ts Hs), (from_denotes e te He). cbn [bind].
    destruct Hc as [->| ->]; [reflexivity|]. now destruct tr.
Qed.
Lemma events_steady es tr c s e ts te : (forall c', c = Some c' -> no_clock_change s e c') -> same_object s e ->
  denotes s ts -> denotes e te ->
  events_dt find_events argsort es tr c s e = Ok (get_observation_events find_events argsort es tr c ts te).
Proof.
  intros Hc Ho Hs He. destruct tr; [|apply events_plain; auto]. destruct c as [c|]; [|apply events_plain; auto].
  destruct (Nat.ltb 1 (length es)) eqn:E; [apply events_many; auto; now apply Nat.ltb_lt|].
  specialize (Hc c eq_refl).
  assert (Hd : dt_sub e s = Ok (te - ts)).
  { destruct Hs as (zs & Zs & Ws & Us), He as (ze & Ze & We & Ue). unfold dt_sub. rewrite Zs, Ze.
    destruct (z_id ze =? z_id zs) eqn:Ei; f_equal; [|lia]. apply Z.eqb_eq in Ei.
    destruct (Hc zs Zs) as [_ H]. specialize (H ze Ze Ei).
    pose proof (Ho zs ze Zs Ze (eq_sym Ei) (d_wall e)). lia. }
  assert (H1 : from_datetime (dt_add s c) = Ok (ts + c)).
  { destruct Hs as (zs & Zs & Ws & Us). unfold from_datetime, dt_add. cbn [d_zone d_wall]. rewrite Zs.
    destruct (Hc zs Zs) as [H _]. f_equal. lia. }
  unfold events_dt, get_observation_events. rewrite E, (from_denotes s ts Hs), (from_denotes e te He). cbn [bind].
  rewrite Hd. cbn [bind]. destruct (c <? te - ts); [|reflexivity].
  unfold repeat_events_dt, repeat_events. rewrite H1. cbn [bind].
  destruct (Nat.eqb _ 0); [reflexivity|].
  rewrite (mapM_map_ok _ (fun t => t <=? te)) by (intros; now apply utc_le). reflexivity.
Qed.
Lemma fixed_steady s e c : fixed s -> no_clock_change s e c.
Proof. intros H z Hz. split; intros; now apply (H z). Qed.

Lemma naive_not_utc a t : naive a -> dt_lt (utc_dt t) a = Raise TypeError.
Proof. intros H. unfold dt_lt, dt_sub. now rewrite H. Qed.
Lemma naive_closest es a : es <> [] -> naive a -> closest_dt es a = Raise TypeError.
Proof. intros H Ha. destruct es as [|e r]; [congruence|]. unfold closest_dt. simpl. now rewrite naive_not_utc. Qed.
Lemma naive_partition es s e : (1 < length es)%nat -> naive s \/ naive e -> forall r, partition_dt argsort es s e <> Ok r.
Proof.
  intros Hl H r. unfold partition_dt. destruct (Nat.leb_spec (length es) 1); [lia|].
  assert (Hn : es <> []) by (intros ->; simpl in Hl; lia).
  destruct (mapM _ _) as [bs|]; [|discriminate]. cbn [bind]. destruct H as [H|H].
  - rewrite (naive_closest es s Hn H). discriminate.
  - destruct (closest_dt es s); [|discriminate]. cbn [bind]. rewrite (naive_closest es e Hn H). discriminate.
Qed.
Lemma naive_events es tr c s e : naive s \/ naive e -> forall r, events_dt find_events argsort es tr c s e <> Ok r.
Proof.
  intros H r. unfold events_dt. destruct (Nat.ltb_spec 1 (length es)) as [L|L].
  - pose proof (naive_partition es s e L H) as N. destruct (partition_dt argsort es s e) as [p|]; [|discriminate].
    now destruct (N p).
  - destruct (from_datetime s) as [t0|] eqn:Es; [|discriminate]. cbn [bind].
    assert (naive e) as He. { destruct H as [H|H]; [|exact H]. unfold from_datetime in Es. rewrite H in Es. discriminate. }
    assert (Ep : bind (from_datetime e) (fun t1 => Ok (find_events 0%nat t0 t1)) = Raise ValueError).
    { unfold from_datetime. now rewrite He. }
    assert (Ed : dt_sub e s = Raise TypeError).
    { unfold dt_sub. rewrite He. unfold from_datetime in Es. destruct (d_zone s); [reflexivity|discriminate]. }
    rewrite Ep, Ed. destruct tr, c; discriminate.
Qed.
End Events.
Lemma naive_track es tr c l a : In a l -> naive a -> forall r, orbit_track_dt es tr c l <> Ok r.
Proof.
  intros Hi Ha r. assert (from_datetime a = Raise ValueError) as E by (unfold from_datetime; now rewrite Ha).
  pose proof (mapM_raise from_datetime l a _ Hi E) as N. unfold orbit_track_dt.
  destruct (mapM from_datetime l) as [us|]; [now destruct (N us)|].
  destruct (Nat.ltb 1 (length es)); [|discriminate]. now destruct (mapM (closest_dt es) l).
Qed.

Lemma visible_denotes s e ts te m ev : denotes s ts -> denotes e te ->
  visible_dt s e m ev = visible_intervals ts te m ev.
Proof.
  intros Hs He. unfold visible_dt, visible_intervals. rewrite (from_denotes s ts Hs), (from_denotes e te He). cbn [bind].
  destruct ev as [|x r]; [reflexivity|]. destruct (forallb _ _); [reflexivity|].
  set (R := times_of is_rise (x :: r)). set (S := times_of is_set (x :: r)).
  assert (leading_dt s ts R S = leading_set ts R S) as ->.
  { unfold leading_dt, leading_set. destruct S as [|y S']; [reflexivity|]. rewrite (lt_utc s ts y Hs). cbn [bind].
    destruct (match R with [] => true | r0 :: _ => y <? r0 end); reflexivity. }
  assert (trailing_dt e te R S = trailing_rise te R S) as ->.
  { unfold trailing_dt, trailing_rise. destruct (last_opt R) as [y|]; [|reflexivity]. rewrite (utc_lt e te y He). cbn [bind].
    destruct (match last_opt S with Some s0 => s0 <? y | None => true end); reflexivity. }
  reflexivity.
Qed.

(** ** A zone whose clock changes *)
Definition hours (h : Z) : Z := h * 3600000000.
(** Clocks go forward by an hour at ten. *)
Definition spring : zone := mk_zone 1 (fun w => if w <? hours 11 then 0 else hours 1).
(** Clocks go back by an hour at eleven (summer time until then). *)
Definition autumn : zone := mk_zone 2 (fun w => if w <? hours 11 then hours 1 else 0).
(** Another zone with a fixed offset. *)
Definition east : zone := mk_zone 3 (fun _ => hours 5).
(** A satellite whose passes culminate daily, at [h] half hours and then every 24 hours. *)
Definition daily (h : Z) (_ : nat) (t0 t1 : Z) : list Z * list Z :=
  let ts := filter (fun t => (t0 <=? t) && (t <=? t1)) [hours h / 2; hours h / 2 + hours 24; hours h / 2 + hours 48] in
  (ts, map (fun _ => 1) ts).

Lemma lost_facts : exists s e, denotes s 0 /\ denotes e (hours 48)
  /\ get_observation_events (daily 47) (fun _ => []) [0] true (Some (hours 24)) 0 (hours 48)
     = ([hours 47 / 2; hours 95 / 2], [1; 1])
  /\ events_dt (daily 47) (fun _ => []) [0] true (Some (hours 24)) s e = Ok ([], []).
Proof.
  exists (mk_dt 0 (Some spring)), (mk_dt (hours 49) (Some spring)).
  repeat split; try (exists spring; repeat split; try reflexivity; discriminate).
Qed.
Lemma twice_facts : exists s e, denotes s 0 /\ denotes e (hours 48)
  /\ get_observation_events (daily 1) (fun _ => []) [0] true (Some (hours 24)) 0 (hours 48)
     = ([hours 1 / 2; hours 49 / 2], [1; 1])
  /\ events_dt (daily 1) (fun _ => []) [0] true (Some (hours 24)) s e
     = Ok ([hours 1 / 2; hours 49 / 2; hours 49 / 2], [1; 1; 1]).
Proof.
  exists (mk_dt (hours 1) (Some autumn)), (mk_dt (hours 48) (Some autumn)).
  repeat split; try (exists autumn; repeat split; try reflexivity; discriminate).
Qed.
Lemma east_denotes t : denotes (mk_dt (t + hours 5) (Some east)) t.
Proof. exists east. repeat split. discriminate. Qed.
Lemma witness_facts : denotes (mk_dt (hours 5) (Some east)) 0 /\ denotes (mk_dt (hours 48) (Some autumn)) (hours 48)
  /\ denotes (mk_dt (hours 1) (Some autumn)) 0
  /\ fixed (mk_dt (hours 5) (Some east)) /\ same_object (mk_dt (hours 5) (Some east)) (mk_dt (hours 48) (Some autumn))
  /\ naive (mk_dt 0 None).
Proof.
  split; [exists east; repeat split; discriminate|]. split; [exists autumn; repeat split; discriminate|].
  split; [exists autumn; repeat split; discriminate|].
  split; [intros z [= <-] w w'; reflexivity|]. split; [|reflexivity].
  intros za zb [= <-] [= <-]. discriminate.
Qed.

Lemma epoch_denotes o a t : denotes a t -> element_epoch o (Some a) = Ok (t - o).
Proof. intros H. simpl. now apply sub_utc. Qed.
Lemma epoch_usable_iff o e : (exists x, element_epoch o e = Ok x) <-> exists a, e = Some a /\ ~ naive a.
Proof.
  split.
  - intros [x Hx]. destruct e as [a|]; [|discriminate]. exists a. split; [reflexivity|]. intros N. unfold naive in N.
    simpl in Hx. unfold dt_sub in Hx. rewrite N in Hx. discriminate.
  - intros (a & -> & N). simpl. unfold dt_sub. unfold naive in N. destruct (d_zone a) as [z|]; [|congruence].
    cbn. destruct (z_id z =? 0); eauto.
Qed.
Lemma lost_refuted :
  exists find_events es cycle s e ts te, denotes s ts /\ denotes e te
    /\ events_dt find_events (fun _ => []) es true (Some cycle) (utc_dt ts) (utc_dt te)
       = Ok ([hours 47 / 2; hours 95 / 2], [1; 1])
    /\ events_dt find_events (fun _ => []) es true (Some cycle) s e = Ok ([], []).
Proof.
  destruct lost_facts as (s & e & H1 & H2 & _ & H4).
  exists (daily 47), [0], (hours 24), s, e, 0, (hours 48). now repeat split.
Qed.
Lemma twice_refuted :
  exists find_events es cycle s e ts te t, denotes s ts /\ denotes e te
    /\ (exists l k, events_dt find_events (fun _ => []) es true (Some cycle) (utc_dt ts) (utc_dt te) = Ok (l, k)
                   /\ count_occ Z.eq_dec l t = 1%nat)
    /\ (exists l k, events_dt find_events (fun _ => []) es true (Some cycle) s e = Ok (l, k)
                   /\ count_occ Z.eq_dec l t = 2%nat).
Proof.
  destruct twice_facts as (s & e & H1 & H2 & _ & H4).
  exists (daily 1), [0], (hours 24), s, e, 0, (hours 48), (hours 49 / 2). split; [assumption|]. split; [assumption|].
  split; do 2 eexists; (split; [first [exact H4 | reflexivity]|reflexivity]).
Qed.
Lemma events_all find_events argsort es tr c s e ts te : denotes s ts -> denotes e te ->
  ((1 < length es)%nat \/ tr = false \/ c = None
   \/ (same_object s e /\ forall c', c = Some c' -> no_clock_change s e c')) ->
  events_dt find_events argsort es tr c s e = Ok (get_observation_events find_events argsort es tr c ts te).
Proof.
  intros Hs He [H|[H|[H|[H1 H2]]]]; [now apply events_many|apply events_plain; auto|apply events_plain; auto|now apply events_steady].
Qed.
Lemma events_fixed find_events argsort es tr c s e ts te : denotes s ts -> denotes e te -> fixed s -> same_object s e ->
  events_dt find_events argsort es tr c s e = events_dt find_events argsort es tr c (utc_dt ts) (utc_dt te).
Proof.
  intros Hs He Hf Ho. rewrite (events_steady find_events argsort es tr c s e ts te); auto using fixed_steady.
  symmetry. apply events_steady; try apply utc_denotes.
  - intros c' _. apply fixed_steady. intros z [= <-] w w'. reflexivity.
  - intros za zb [= <-] [= <-] _ w. reflexivity.
Qed.
Lemma naive_refused find_events argsort es tr c :
  (forall s e, naive s \/ naive e -> forall r, events_dt find_events argsort es tr c s e <> Ok r)
  /\ (forall l a, In a l -> naive a -> forall r, orbit_track_dt es tr c l <> Ok r)
  /\ (forall a, es <> [] -> naive a -> closest_dt es a = Raise TypeError).
Proof. split; [apply naive_events|]. split; [intros l a; apply naive_track|]. intros a. apply naive_closest. Qed.
Lemma epoch_refuted o : element_epoch o None = Raise TypeError /\ exists a, element_epoch o (Some a) = Raise TypeError.
Proof. split; [reflexivity|]. exists (mk_dt 0 None). reflexivity. Qed.
Lemma epoch_witness : denotes (mk_dt (hours 48) (Some autumn)) (hours 48) /\ ~ naive (mk_dt (hours 48) (Some autumn)).
Proof. split; [apply witness_facts|discriminate]. Qed.
Lemma default_refuted : exists imported now e, imported < now /\ constructed_epoch imported now None = Some e /\ ~ denotes e now.
Proof.
  exists 0, 1, (utc_dt 0). split; [reflexivity|]. split; [reflexivity|]. intros (z & [= <-] & H & _). discriminate.
Qed.
Lemma import_epoch imported now now' :
  (exists e, constructed_epoch imported now None = Some e /\ denotes e imported)
  /\ constructed_epoch imported now None = constructed_epoch imported now' None
  /\ forall e, constructed_epoch imported now (Some e) = e.
Proof. split; [exists (utc_dt imported); split; [reflexivity|apply utc_denotes]|]. split; reflexivity. Qed.
Lemma import_witness : constructed_epoch 5 9 None = Some (utc_dt 5) /\ denotes (utc_dt 5) 5.
Proof. split; [reflexivity|apply utc_denotes]. Qed.
