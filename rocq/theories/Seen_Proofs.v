(** Proofs about the conditions reported with observations. *)
From Coq Require Import String Reals ZArith List Bool Lia Lra Sorting.Permutation Sorting.Sorted.
From Verif Require Import Base BaseFacts RBase RFacts Instr_Model Coverage_Model Coverage_Spec Coverage_Proofs1 Coverage_Proofs2 Coverage_Props
  Epoch_Model Seen_Model Whole_Spec Whole_Proofs Seen_Spec.
Import ListNotations.
Open Scope Z_scope.

Lemma combine_map_self {A B} (f : A -> B) l : combine (map f l) l = map (fun x => (f x, x)) l.
Proof. induction l as [|x l IH]; [reflexivity|]. cbn. now rewrite IH. Qed.
Lemma combine_self_map {A B} (f : A -> B) l : combine l (map f l) = map (fun x => (x, f x)) l.
Proof. induction l as [|x l IH]; [reflexivity|]. cbn. now rewrite IH. Qed.

Lemma track_one o t : orbit_track (so_epochs o) (so_repeat_track o) (so_cycle o) [t] = [state_at o t].
Proof. unfold state_at, orbit_track. destruct (Nat.ltb 1 _); [reflexivity|]. destruct (so_repeat_track o), (so_cycle o); reflexivity. Qed.
Lemma track_each o ts : orbit_track (so_epochs o) (so_repeat_track o) (so_cycle o) ts = map (state_at o) ts.
Proof.
  unfold state_at, orbit_track. destruct (Nat.ltb 1 _).
  - rewrite combine_map_self. reflexivity.
  - destruct (so_repeat_track o), (so_cycle o); reflexivity.
Qed.

Lemma valid_spec (sl : nat * Z -> Z -> bool) sun o q t : valid_at sl sun o q t = true ->
  (forall b, req_self q = Some b -> sl (state_at o t) t = b) /\ (forall b, req_target q = Some b -> ((0 < fst (sun t))%R <-> b = true)).
Proof.
  unfold valid_at, is_valid_observation. cbn [length Nat.ltb Nat.leb map fst snd].
  intros H. split; intros b E.
  - rewrite E in H. cbn [require combine map fst snd] in H. destruct (req_target q); cbn in H.
    + apply andb_prop in H as [H _]. now apply eqb_prop in H.
    + now apply eqb_prop in H.
  - rewrite E in H. destruct (req_self q); cbn in H.
    + apply andb_prop in H as [_ H]. apply eqb_prop in H. rewrite <- H. symmetry. apply Rltb_spec.
    + apply eqb_prop in H. rewrite <- H. symmetry. apply Rltb_spec.
Qed.

Section One.
Variable argsort : list Z -> list nat.
Variable find_events : nat -> Z -> Z -> list Z * list Z.
Variable sat_seen : nat * Z -> Z -> R * R.
Variable sunlit : nat * Z -> Z -> bool.
Variable sun_seen : Z -> R * R.
Variable hour_angle : Z -> R.
Variable footprint : option (nat * Z -> bool).
Local Notation collect := (collect_seen argsort find_events sat_seen sunlit sun_seen hour_angle footprint).
Local Notation fp o := (match footprint with None => None | Some c => Some (fun t => c (state_at o t)) end).
Local Notation evs o s e := (event_list (get_observation_events find_events argsort (so_epochs o) (so_repeat_events o) (so_cycle o) s e)).

Lemma collect_each o pid sat inst a q start end_ maxacc omit : collect o pid sat inst a q start end_ maxacc omit =
  bind (visible_intervals start end_ maxacc (evs o start end_)) (fun periods =>
    Ok (map (fun x => add_columns sat_seen sunlit sun_seen hour_angle omit (x, state_at o (o_epoch x)))
        (collect_observations pid sat inst a (valid_at sunlit sun_seen o q) (fp o) periods))).
Proof.
  unfold collect_seen. destruct (visible_intervals _ _ _ _) as [iv|]; [|reflexivity]. cbn [bind]. do 2 f_equal.
  rewrite track_each, map_map. rewrite (combine_self_map (fun x => state_at o (o_epoch x))). rewrite map_map. reflexivity.
Qed.

Theorem conditions_lemma o pid sat inst a q start end_ maxacc omit rows :
  collect o pid sat inst a q start end_ maxacc omit = Ok rows ->
  forall r, In r rows -> own_conditions o sat_seen sunlit sun_seen hour_angle r /\ meets q r /\ (s_sun r = None <-> omit = true)
    /\ (forall c, footprint = Some c -> forall st, orbit_track (so_epochs o) (so_repeat_track o) (so_cycle o) [o_epoch (s_obs r)] = [st] -> c st = true).
Proof.
  rewrite collect_each. destruct (visible_intervals _ _ _ _) as [iv|]; [|discriminate]. cbn [bind]. intros [= <-] r Hr.
  apply in_map_iff in Hr as (x & <- & Hx). apply collect_in in Hx as (p & _ & K & ->).
  unfold keep_period in K. apply andb_prop in K as [K F]. apply andb_prop in K as [_ V].
  unfold add_columns. cbn [fst snd s_obs]. set (t := o_epoch (mk_record pid sat inst a p)) in *.
  change (interval_mid p) with t in V, F.
  split; [|split; [|split]].
  - exists (state_at o t). split; [apply track_one|]. split; [reflexivity|]. cbn [s_sun s_obs]. fold t. destruct omit; [now left|now right].
  - unfold meets. cbn [s_sun]. destruct omit; [exact Logic.I|]. destruct (sun_seen t) as [al az] eqn:SE. cbn [fst snd].
    pose proof (valid_spec sunlit sun_seen o q t V) as [A B]. rewrite SE in B. cbn [fst] in B. split; assumption.
  - cbn [s_sun]. destruct omit; split; congruence.
  - intros c E st ST. fold t in ST. rewrite track_one in ST. injection ST as <-. rewrite E in F. exact F.
Qed.

Theorem omit_lemma o pid sat inst a q start end_ maxacc rows :
  collect o pid sat inst a q start end_ maxacc false = Ok rows ->
  collect o pid sat inst a q start end_ maxacc true = Ok (map without_sun rows).
Proof.
  rewrite !collect_each. destruct (visible_intervals _ _ _ _) as [iv|]; [|discriminate]. cbn [bind]. intros [= <-]. f_equal.
  rewrite map_map. reflexivity.
Qed.

(* whatever the events and the track are made of, if the events tell the altitudes of the track *)
Theorem elevation_general o pid sat inst a q start end_ maxacc omit theta rows : start < end_ ->
  tells start end_ maxacc theta (fun t => fst (sat_seen (state_at o t) t)) (evs o start end_) ->
  collect o pid sat inst a q start end_ maxacc omit = Ok rows -> Forall (fun r => (theta <= fst (s_sat r))%R) rows.
Proof.
  intros SE (b & SK & AB). rewrite collect_each. destruct SK as (C & W & A & S & NEV).
  destruct (c53_visible_intervals_in_window start end_ maxacc _ (Z.lt_le_incl _ _ SE) W) as (iv & V & F). rewrite V. cbn [bind]. intros [= <-].
  apply Forall_forall. intros r Hr. apply in_map_iff in Hr as (x & <- & Hx). apply collect_in in Hx as ([l rr] & HI & _ & ->).
  cbn [add_columns s_sat fst snd]. change (o_epoch (mk_record pid sat inst a (l, rr))) with (l + (rr - l) / 2).
  rewrite Forall_forall in F. destruct (F _ HI) as (F1 & _ & F3 & F4). specialize (F4 SE). cbn [fst snd] in F1, F3, F4.
  assert (M : l <= l + (rr - l) / 2 < rr).
  { pose proof (Z.div_mod (rr - l) 2). pose proof (Z.mod_pos_bound (rr - l) 2). lia. }
  apply AB; [lia|]. assert (NN : evs o start end_ <> []).
  { intros E. rewrite E in V. cbn in V. injection V as <-. destruct HI. }
  destruct (c52_visible_intervals_exact start end_ maxacc _ b (Z.lt_le_incl _ _ SE) NN C W A S) as (iv' & V' & X).
  rewrite V in V'. injection V' as <-. apply X; [lia|]. exists (l, rr). split; [exact HI|]. cbn [fst snd]. lia.
Qed.
(* one element set, no repeat cycle for the track or the events *)
Theorem elevation_lemma o pid sat inst a q start end_ maxacc omit theta rows : start < end_ -> (length (so_epochs o) <= 1)%nat ->
  so_repeat_events o = false \/ so_cycle o = None -> so_repeat_track o = false \/ so_cycle o = None ->
  tells start end_ maxacc theta (fun t => fst (sat_seen (0%nat, t) t)) (event_list (find_events 0%nat start end_)) ->
  collect o pid sat inst a q start end_ maxacc omit = Ok rows -> Forall (fun r => (theta <= fst (s_sat r))%R) rows.
Proof.
  intros SE NE RE RT (b & SK & AB). apply elevation_general; [exact SE|].
  assert (EV : get_observation_events find_events argsort (so_epochs o) (so_repeat_events o) (so_cycle o) start end_ = find_events 0%nat start end_).
  { unfold get_observation_events. destruct (Nat.ltb_spec 1 (length (so_epochs o))); [lia|].
    destruct (so_repeat_events o); [|reflexivity]. destruct RE as [RE|RE]; [discriminate|]. rewrite RE. reflexivity. }
  rewrite EV. exists b. split; [exact SK|]. intros t T H. replace (state_at o t) with (0%nat, t); [exact (AB t T H)|].
  unfold state_at, orbit_track. destruct (Nat.ltb_spec 1 (length (so_epochs o))); [lia|].
  destruct (so_repeat_track o); [|reflexivity]. destruct RT as [RT|RT]; [discriminate|]. rewrite RT. reflexivity.
Qed.
End One.

(* ---- Several satellites ---- *)
Lemma Forall2_impl_ {A B} (P Q : A -> B -> Prop) l k : (forall x y, P x y -> Q x y) -> Forall2 P l k -> Forall2 Q l k.
Proof. intros H F. induction F; constructor; auto. Qed.
Lemma in_pairs {C S} (members : C -> list S) n_inst sats s i :
  In (s, i) (flat_map (fun c => flat_map (fun s => map (fun i => (s, i)) (seq 0 (n_inst s))) (members c)) sats) <->
  exists c, In c sats /\ In s (members c) /\ (i < n_inst s)%nat.
Proof.
  rewrite in_flat_map. split.
  - intros (c & Hc & H). apply in_flat_map in H as (s' & Hs & H). apply in_map_iff in H as (j & E & Hj). injection E as -> ->.
    apply in_seq in Hj. exists c. repeat split; [assumption..|lia].
  - intros (c & Hc & Hs & Hi). exists c. split; [exact Hc|]. apply in_flat_map. exists s. split; [exact Hs|].
    apply in_map_iff. exists i. split; [reflexivity|]. apply in_seq. lia.
Qed.
Lemma F2_in_r {A B} (P : A -> B -> Prop) l k y : Forall2 P l k -> In y k -> exists x, In x l /\ P x y.
Proof. intros F. induction F; intros []; [subst; eauto using in_eq|]. destruct (IHF H0) as (z & ? & ?). eauto using in_cons. Qed.
Lemma F2_in_l {A B} (P : A -> B -> Prop) l k x : Forall2 P l k -> In x l -> exists y, In y k /\ P x y.
Proof. intros F. induction F; intros []; [subst; eauto using in_eq|]. destruct (IHF H0) as (z & ? & ?). eauto using in_cons. Qed.

Theorem multi_rows_lemma {C S} srt (members : C -> list S) n_inst collect sats out :
  is_sort (fun r => o_start (s_obs r)) srt -> collect_multi_seen srt members n_inst collect sats = Ok out ->
  StronglySorted (key_le (fun r => o_start (s_obs r))) out /\
  forall r, In r out <-> some_instrument sats members n_inst (fun s i => exists rows, collect s i = Ok rows /\ In r rows).
Proof.
  intros HS. unfold collect_multi_seen. set (ps := flat_map _ sats). destruct (mapM _ ps) as [fs|] eqn:M; [|discriminate]. cbn [bind].
  apply mapM_ok in M. destruct fs as [|f fs]; [discriminate|]. intros [= <-]. destruct (HS (concat (f :: fs))) as [P SS].
  split; [exact SS|]. intros r. split.
  - intros H. apply (Permutation_in _ P) in H. apply in_concat in H as (rows & Hr & Hx).
    destruct (F2_in_r _ _ _ _ M Hr) as ([s i] & Hp & E). unfold ps in Hp. apply in_pairs in Hp as (c & Hc & Hs & Hi).
    exists c, s, i. repeat split; try assumption. exists rows. split; assumption.
  - intros (c & s & i & Hc & Hs & Hi & rows & E & Hx). apply (Permutation_in _ (Permutation_sym P)). apply in_concat.
    assert (Hp : In (s, i) ps) by (apply in_pairs; exists c; repeat split; assumption).
    destruct (F2_in_l _ _ _ _ M Hp) as (rows' & Hr & E'). cbn [fst snd] in E'. rewrite E in E'. injection E' as <-. exists rows. split; assumption.
Qed.

Lemma F2_map_r {A B D} (P : A -> D -> Prop) (g : B -> D) l k : Forall2 (fun x y => P x (g y)) l k -> Forall2 P l (map g k).
Proof. intros F. induction F; constructor; auto. Qed.
Theorem multi_omit_lemma {C S} srt srt' (members : C -> list S) n_inst (collect : bool -> S -> nat -> pyres (list seen)) sats out :
  is_sort (fun r => o_start (s_obs r)) srt -> is_sort (fun r => o_start (s_obs r)) srt' ->
  (forall s i rows, collect false s i = Ok rows -> collect true s i = Ok (map without_sun rows)) ->
  collect_multi_seen srt members n_inst (collect false) sats = Ok out ->
  exists out', collect_multi_seen srt' members n_inst (collect true) sats = Ok out' /\ Permutation out' (map without_sun out).
Proof.
  intros HS HS' HC. unfold collect_multi_seen. set (ps := flat_map _ sats).
  destruct (mapM (fun x => collect false (fst x) (snd x)) ps) as [fs|] eqn:M; [|discriminate]. cbn [bind].
  apply mapM_ok in M. intros E.
  assert (M' : mapM (fun x => collect true (fst x) (snd x)) ps = Ok (map (map without_sun) fs)).
  { apply mapM_ok. apply F2_map_r. eapply Forall2_impl_; [|exact M]. intros x y. apply HC. }
  rewrite M'. cbn [bind]. destruct fs as [|f fs]; [discriminate|]. injection E as <-. cbn [map]. eexists. split; [reflexivity|].
  etransitivity; [apply HS'|]. change (map without_sun f :: map (map without_sun) fs) with (map (map without_sun) (f :: fs)).
  rewrite <- concat_map. apply Permutation_map. symmetry. apply HS.
Qed.

(* ---- Several element sets: events and tracks use different ones ---- *)
Definition two := mk_source [0; 100] false false None.
Definition two_events (i : nat) (s e : Z) : list Z * list Z := match i with 0%nat => if s =? 50 then ([70; 80], [0; 2]) else ([], []) | _ => ([], []) end.
Definition two_seen (st : nat * Z) (t : Z) : R * R := match fst st with 0%nat => if (70 <=? t) && (t <=? 80) then (30%R, 0%R) else ((-5)%R, 0%R) | _ => ((-60)%R, 0%R) end.
Definition two_argsort (l : list Z) : list nat := seq 0 (length l).
Lemma two_sound : forall i s e, In (i, s, e) [(0%nat, 10, 50); (0%nat, 50, 90); (1%nat, 10, 50); (1%nat, 50, 90)] ->
  tells s e 20 10 (fun t => fst (two_seen (i, t) t)) (event_list (two_events i s e)).
Proof.
  assert (Q : forall s e m, (forall t, s <= t <= e -> True) -> sky s e m false []).
  { intros s e m _. repeat split; constructor. }
  intros i s e [E|[E|[E|[E|[]]]]]; injection E as <- <- <-; exists false; cbn.
  - split; [apply Q; auto|]. intros t _ H; discriminate.
  - split; [|].
    + unfold sky, chronological, in_window. repeat split; try (repeat constructor; cbn; lia); try discriminate.
    + intros t T. unfold two_seen. cbn [fst]. destruct (Z.leb_spec 70 t), (Z.leb_spec t 80); cbn [andb fst]; try lra.
      * destruct (Z.ltb_spec 70 (t + 1)), (Z.ltb_spec 80 (t + 1)); intros K; try discriminate; lia.
      * destruct (Z.ltb_spec 70 (t + 1)), (Z.ltb_spec 80 (t + 1)); intros K; try discriminate; lia.
      * lia.
  - split; [apply Q; auto|]. intros t _ H; discriminate.
  - split; [apply Q; auto|]. intros t _ H; discriminate.
Qed.
Definition plain_req := mk_req None None.
Theorem elevation_multi : exists argsort find_events sat_seen sunlit sun_seen hour_angle o a q theta rows r,
  (forall i s e, In (i, s, e) [(0%nat, 10, 50); (0%nat, 50, 90); (1%nat, 10, 50); (1%nat, 50, 90)] ->
     tells s e 20 theta (fun t => fst (sat_seen (i, t) t)) (event_list (find_events i s e))) /\
  fst (partition_by_tle_index argsort (so_epochs o) 10 90) = [10; 50; 90] /\
  collect_seen argsort find_events sat_seen sunlit sun_seen hour_angle None o 1 "s" "i" a q 10 90 20 true = Ok rows /\
  In r rows /\ (fst (s_sat r) < theta - 60)%R.
Proof.
  exists two_argsort, two_events, two_seen, (fun _ _ => true), (fun _ => (0%R, 0%R)), (fun _ => 0%R), two, {| acc_fixed := false; acc_min := 0 |}, plain_req, 10%R.
  exists [mk_seen (mk_obs 1 "s" "i" 70 75 80) ((-60)%R, 0%R) None], (mk_seen (mk_obs 1 "s" "i" 70 75 80) ((-60)%R, 0%R) None).
  split; [exact two_sound|]. split; [reflexivity|]. split; [reflexivity|]. split; [now left|]. cbn. lra.
Qed.

(* a repeat cycle for the events only *)
Theorem elevation_cycle : exists argsort find_events sat_seen sunlit sun_seen hour_angle o a q theta rows r, length (so_epochs o) = 1%nat /\ so_repeat_track o = false /\
  tells 0 50 20 theta (fun t => fst (sat_seen (0%nat, t) t)) (event_list (find_events 0%nat 0 50)) /\
  tells 0 100 20 theta (fun t => fst (sat_seen (0%nat, t) t)) (event_list (find_events 0%nat 0 100)) /\
  collect_seen argsort find_events sat_seen sunlit sun_seen hour_angle None o 1 "s" "i" a q 0 100 20 true = Ok rows /\
  In r rows /\ (fst (s_sat r) < theta)%R.
Proof.
  set (fe := fun (i : nat) (s e : Z) => ([10; 20], [0; 2])). set (ss := fun (st : nat * Z) (t : Z) => if (10 <=? t) && (t <=? 20) then (30%R, 0%R) else (0%R, 0%R)).
  exists two_argsort, fe, ss, (fun _ _ => true), (fun _ => (0%R, 0%R)), (fun _ => 0%R), (mk_source [0] true false (Some 50)), {| acc_fixed := false; acc_min := 0 |}, plain_req, 10%R.
  exists [mk_seen (mk_obs 1 "s" "i" 10 15 20) (30%R, 0%R) None; mk_seen (mk_obs 1 "s" "i" 60 65 70) (0%R, 0%R) None], (mk_seen (mk_obs 1 "s" "i" 60 65 70) (0%R, 0%R) None).
  assert (T : forall e, 20 <= e -> tells 0 e 20 10 (fun t => fst (ss (0%nat, t) t)) (event_list (fe 0%nat 0 e))).
  { intros e E. exists false. cbn. split.
    - unfold sky, chronological, in_window. repeat split; try (repeat constructor; cbn; lia); try discriminate.
    - intros t T. unfold ss. destruct (Z.leb_spec 10 t), (Z.leb_spec t 20); cbn [andb fst]; try lra.
      + destruct (Z.ltb_spec 10 (t + 1)), (Z.ltb_spec 20 (t + 1)); intros K; try discriminate; lia.
      + destruct (Z.ltb_spec 10 (t + 1)), (Z.ltb_spec 20 (t + 1)); intros K; try discriminate; lia.
      + lia. }
  split; [reflexivity|]. split; [reflexivity|]. split; [apply T; lia|]. split; [apply T; lia|]. split; [reflexivity|]. split; [right; now left|]. cbn. lra.
Qed.

Lemma seen_witness :
  let sun t := if t <? 50 then ((-20)%R, 90%R) else (40%R, 120%R) in
  let get sunlit := collect_seen (fun l => seq 0 (length l)) (fun _ _ _ => ([10; 20; 60; 70], [0; 2; 0; 2])) (fun st t => (45%R, 10%R)) sunlit
    sun (fun _ => 1%R) None (mk_source [0] false false None) 1 "s" "i" {| acc_fixed := false; acc_min := 0 |} (mk_req (Some true) (Some true)) 0 100 20 false in
  get (fun _ _ => true) = Ok [mk_seen (mk_obs 1 "s" "i" 60 65 70) (45%R, 10%R) (Some (true, (40%R, 120%R), (1 + 12)%R))]
  /\ get (fun st _ => snd st <? 50) = Ok [].
Proof.
  assert (A : Rltb 0 (-20) = false) by (destruct (Rltb 0 (-20)) eqn:E; [apply Rltb_spec in E; lra|reflexivity]).
  assert (B : Rltb 0 40 = true) by (apply Rltb_spec; lra).
  intros sun get. assert (E : forall sl, get sl = Ok (map (fun x => add_columns (fun _ _ => (45%R, 10%R)) sl sun (fun _ => 1%R) false (x, (0%nat, o_epoch x)))
    (collect_observations 1 "s" "i" {| acc_fixed := false; acc_min := 0 |} (valid_at sl sun (mk_source [0] false false None) (mk_req (Some true) (Some true))) None [(10, 20); (60, 70)]))).
  { intros sl. unfold get. rewrite collect_each. reflexivity. }
  rewrite !E. unfold collect_observations. cbn [filter].
  assert (V : forall sl t, valid_at sl sun (mk_source [0] false false None) (mk_req (Some true) (Some true)) t = Bool.eqb (sl (0%nat, t) t) true && Bool.eqb (Rltb 0 (fst (sun t))) true).
  { intros. reflexivity. }
  unfold keep_period. rewrite !V. change (interval_mid (10, 20)) with 15. change (interval_mid (60, 70)) with 65.
  change (sun 15) with ((-20)%R, 90%R). change (sun 65) with (40%R, 120%R). cbn [fst]. rewrite A, B. split; reflexivity.
Qed.
Lemma tells_witness : tells 0 100 20 10 (fun t => if (t <=? 5) || ((10 <=? t) && (t <=? 20)) then 30 else 0)%R (event_list ([5; 10; 20], [2; 0; 2])).
Proof.
  exists true. cbn. split.
  - unfold sky, chronological, in_window. repeat split; try (repeat constructor; cbn; lia); try discriminate.
  - intros t T. destruct (Z.leb_spec t 5), (Z.leb_spec 10 t), (Z.leb_spec t 20); cbn [andb orb]; intros K; try lra; exfalso; revert K;
    destruct (Z.ltb_spec 5 (t + 1)), (Z.ltb_spec 10 (t + 1)), (Z.ltb_spec 20 (t + 1)); intros K; try discriminate; lia.
Qed.
