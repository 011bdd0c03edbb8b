(** Elevations with several element sets that agree (C189). *)
From Coq Require Import String Reals ZArith List Bool Lia Lra Sorting.Sorted.
From Verif Require Import Base BaseFacts Instr_Model Coverage_Model Coverage_Spec Epoch_Model Epoch_Spec Epoch_Proofs Epoch_Props Whole_Spec Seen_Model Seen_Spec Seen_Proofs.
Import ListNotations.
Open Scope Z_scope.

Definition within (s e : Z) (x : Z * event) : bool := (s <=? fst x) && (fst x <? e).
Lemma within_iff s e x : within s e x = true <-> s <= fst x < e.
Proof. unfold within. rewrite andb_true_iff, Z.leb_le, Z.ltb_lt. tauto. Qed.
Lemma filter_none {A} (f : A -> bool) l : (forall x, In x l -> f x = false) -> filter f l = [].
Proof. induction l as [|x l IH]; intro H; [reflexivity|]. cbn. rewrite (H x (or_introl eq_refl)). apply IH. intros y Y. apply H. now right. Qed.
Lemma filter_same {A} (f g : A -> bool) l : (forall x, In x l -> f x = g x) -> filter f l = filter g l.
Proof. induction l as [|x l IH]; intro H; [reflexivity|]. cbn. rewrite (H x (or_introl eq_refl)), IH; [reflexivity|]. intros y Y. apply H. now right. Qed.
Lemma filter_split s m e ev : chronological ev -> s <= m <= e -> filter (within s e) ev = filter (within s m) ev ++ filter (within m e) ev.
Proof.
  intros C B. induction C as [|x ev C IH F]; [reflexivity|]. cbn [filter]. rewrite IH. rewrite Forall_forall in F.
  destruct (within s e x) eqn:W.
  - apply within_iff in W. destruct (Z_lt_dec (fst x) m) as [L|L].
    + rewrite (proj2 (within_iff s m x) ltac:(lia)). destruct (within m e x) eqn:W2; [apply within_iff in W2; lia|reflexivity].
    + destruct (within s m x) eqn:W2; [apply within_iff in W2; lia|]. rewrite (proj2 (within_iff m e x) ltac:(lia)).
      rewrite (filter_none (within s m) ev); [reflexivity|]. intros y Y. destruct (within s m y) eqn:W3; [|reflexivity]. apply within_iff in W3. specialize (F y Y). lia.
  - destruct (within s m x) eqn:W2; [exfalso; apply within_iff in W2; assert (X : within s e x = true) by (apply within_iff; lia); congruence|].
    destruct (within m e x) eqn:W3; [exfalso; apply within_iff in W3; assert (X : within s e x = true) by (apply within_iff; lia); congruence|]. reflexivity.
Qed.
Lemma event_list_flat {A} (f : A -> list Z * list Z) l : (forall x, In x l -> length (fst (f x)) = length (snd (f x))) ->
  event_list (flat_map fst (map f l), flat_map snd (map f l)) = flat_map (fun x => event_list (f x)) l.
Proof.
  unfold event_list. cbn [fst snd]. induction l as [|x l IH]; intro H; [reflexivity|]. cbn. rewrite map_app, Epoch_Proofs.combine_app; [|rewrite map_length; apply H; now left].
  f_equal. apply IH. intros y Y. apply H. now right.
Qed.

Lemma last_any {A} (r : list A) : forall x a b, last (x :: r) a = last (x :: r) b.
Proof. induction r as [|y r IH]; intros; [reflexivity|]. exact (IH y a b). Qed.
Lemma last_in {A} (r : list A) : forall x a, In (last (x :: r) a) (x :: r).
Proof. induction r as [|y r IH]; intros; [now left|]. right. exact (IH y a). Qed.
(* the pieces of a chronological list, put together *)
Lemma pieces ev : chronological ev -> forall ts is, StronglySorted Z.le ts -> (length ts <= S (length is))%nat -> forall t0 r, ts = t0 :: r ->
  flat_map (fun x => filter (within (snd (fst x)) (snd x)) ev) (segments ts is) = filter (within t0 (last ts t0)) ev.
Proof.
  intros C ts. induction ts as [|u ts IH]; intros is S L t0 r E; [discriminate|]. injection E as -> ->.
  destruct r as [|t1 r].
  - cbn. destruct is; symmetry; apply filter_none; intros x _; destruct (within t0 t0 x) eqn:W; [apply within_iff in W; lia|reflexivity|apply within_iff in W; lia|reflexivity].
  - destruct is as [|i is]; [cbn in L; lia|]. inversion S as [|? ? S' F]; subst. 
    change (segments (t0 :: t1 :: r) (i :: is)) with ((i, t0, t1) :: segments (t1 :: r) is). cbn [flat_map fst snd].
    rewrite (IH is S' ltac:(cbn in L |- *; lia) t1 r eq_refl).
    change (last (t0 :: t1 :: r) t0) with (last (t1 :: r) t0).
    replace (last (t1 :: r) t0) with (last (t1 :: r) t1).
    2: { apply last_any. }
    symmetry. apply filter_split; [exact C|]. rewrite Forall_forall in F. split; [apply F; now left|].
    assert (G : Forall (fun y => t1 <= y) (t1 :: r)); [|rewrite Forall_forall in G; apply G; apply last_in].
    inversion S' as [|? ? S2 F2]; subst. constructor; [lia|exact F2].
Qed.
Lemma segments_in ts : StronglySorted Z.le ts -> forall is i s e lo hi, Forall (fun t => lo <= t <= hi) ts -> In (i, s, e) (segments ts is) ->
  In i is /\ lo <= s <= e /\ e <= hi.
Proof.
  induction 1 as [|t0 ts S IH F]; intros is i s e lo hi B H; [destruct H|]. destruct ts as [|t1 r]; [destruct is; destruct H|].
  destruct is as [|j is]; [destruct H|]. change (segments (t0 :: t1 :: r) (j :: is)) with ((j, t0, t1) :: segments (t1 :: r) is) in H.
  inversion B as [|? ? B0 B']; subst. destruct H as [H|H].
  - injection H as -> -> ->. inversion F; subst. inversion B'; subst. repeat split; try lia. now left.
  - destruct (IH is i s e lo hi B' H) as (I1 & I2). split; [now right|exact I2].
Qed.

Section S.
Variable argsort : list Z -> list nat.
Variable find_events : nat -> Z -> Z -> list Z * list Z.
Lemma several_events es start end_ ev : is_argsort argsort -> es <> [] -> StronglySorted Z.le es -> start < end_ -> chronological ev ->
  (forall i s e, (i < length es)%nat -> start <= s <= e -> e <= end_ ->
     length (fst (find_events i s e)) = length (snd (find_events i s e)) /\ event_list (find_events i s e) = filter (within s e) ev) ->
  event_list (multi_events find_events (partition_by_tle_index argsort es start end_)) = filter (within start end_) ev.
Proof.
  intros HA NE HS SE C FE. destruct (partition_by_tle_index argsort es start end_) as [ts is] eqn:P.
  destruct (partition_lemma argsort es start end_ ts is HA NE HS ltac:(lia) P) as ((ms & _ & T) & S & L & F).
  assert (B : Forall (fun t => start <= t <= end_) ts).
  { rewrite T. constructor; [lia|]. apply Forall_app. split; [|repeat constructor; lia]. apply Forall_forall. intros x X. apply filter_In in X as (_ & X).
    apply andb_prop in X as (X1 & X2). apply Z.ltb_lt in X1, X2. lia. }
  assert (K : forall x, In x (segments ts is) -> length (fst (find_events (fst (fst x)) (snd (fst x)) (snd x))) = length (snd (find_events (fst (fst x)) (snd (fst x)) (snd x)))
     /\ event_list (find_events (fst (fst x)) (snd (fst x)) (snd x)) = filter (within (snd (fst x)) (snd x)) ev).
  { intros [[i s] e] X. cbn [fst snd]. destruct (segments_in ts S is i s e start end_ B X) as (I1 & I2 & I3). rewrite Forall_forall in F. exact (FE i s e (F i I1) I2 I3). }
  unfold multi_events. cbn [fst snd]. rewrite (event_list_flat (fun s => find_events (fst (fst s)) (snd (fst s)) (snd s))) by (intros x X; exact (proj1 (K x X))).
  transitivity (flat_map (fun x => filter (within (snd (fst x)) (snd x)) ev) (segments ts is)).
  - clear - K. induction (segments ts is) as [|x l IH]; [reflexivity|]. cbn [flat_map]. rewrite (proj2 (K x (or_introl eq_refl))), IH; [reflexivity|]. intros y Y. apply K. now right.
  - rewrite (pieces ev C ts is S ltac:(lia) start _ T). f_equal. f_equal. rewrite T. 
    change (start :: filter (fun m => (start <? m) && (m <? end_)) ms ++ [end_]) with ((start :: filter (fun m => (start <? m) && (m <? end_)) ms) ++ [end_]). apply last_last.
Qed.
End S.

Theorem elevation_agreeing argsort find_events sat_seen sunlit sun_seen hour_angle footprint o pid sat inst a q start end_ maxacc omit theta alt ev rows :
  is_argsort argsort -> StronglySorted Z.le (so_epochs o) -> (1 < length (so_epochs o))%nat -> start < end_ ->
  tells start end_ maxacc theta alt ev -> Forall (fun x => fst x < end_) ev ->
  (forall i t, (i < length (so_epochs o))%nat -> start <= t < end_ -> fst (sat_seen (i, t) t) = alt t) ->
  (forall i s e, (i < length (so_epochs o))%nat -> start <= s <= e -> e <= end_ ->
     length (fst (find_events i s e)) = length (snd (find_events i s e))
     /\ event_list (find_events i s e) = filter (fun x => (s <=? fst x) && (fst x <? e)) ev) ->
  collect_seen argsort find_events sat_seen sunlit sun_seen hour_angle footprint o pid sat inst a q start end_ maxacc omit = Ok rows ->
  Forall (fun r => (theta <= fst (s_sat r))%R) rows.
Proof.
  intros HA HS HL SE (b & SK & AB) LT AG FE. assert (NE : so_epochs o <> []) by (intro X; rewrite X in HL; cbn in HL; lia). 
  assert (C := proj1 SK). assert (W := proj1 (proj2 SK)).
  apply elevation_general; [exact SE|]. unfold get_observation_events. rewrite (proj2 (Nat.ltb_lt _ _) HL).
  rewrite (several_events argsort find_events (so_epochs o) start end_ ev HA NE HS SE C FE).
  replace (filter (within start end_) ev) with ev.
  - exists b. split; [exact SK|]. intros t T H. unfold state_at, orbit_track. rewrite (proj2 (Nat.ltb_lt _ _) HL). cbn [map combine hd].
    rewrite AG; [exact (AB t T H)|exact (closest_valid _ _ NE HS)|exact T].
  - clear - LT W. unfold in_window in W. induction ev as [|x ev IH]; [reflexivity|]. inversion LT; subst. inversion W; subst. cbn [filter]. rewrite (proj2 (within_iff start end_ x)) by lia.
    f_equal. apply IH; assumption.
Qed.

(* two element sets, one pass across the instant between them *)
Definition pass_events (i : nat) (s e : Z) : list Z * list Z :=
  let l := filter (fun x => (s <=? fst x) && (fst x <? e)) [(40, 0); (60, 2)] in (map fst l, map snd l).
Lemma agreeing_witness : tells 10 90 20 10 (fun t => if (40 <=? t) && (t <=? 60) then 30 else 0)%R (event_list ([40; 60], [0; 2]))
  /\ Forall (fun x => fst x < 90) (event_list ([40; 60], [0; 2]))
  /\ (forall i s e, length (fst (pass_events i s e)) = length (snd (pass_events i s e))
       /\ event_list (pass_events i s e) = filter (fun x => (s <=? fst x) && (fst x <? e)) (event_list ([40; 60], [0; 2])))
  /\ partition_by_tle_index argsort_ref [0; 100] 10 90 = ([10; 50; 90], [0; 0; 1]%nat)
  /\ get_observation_events pass_events argsort_ref [0; 100] true None 10 90 = ([40; 60], [0; 2])
  /\ visible_intervals 10 90 20 (event_list ([40; 60], [0; 2])) = Ok [(40, 60)].
Proof.
  split; [|split; [|split; [|split; [|split]]]].
  - exists false. cbn. split.
    + unfold sky, chronological, in_window. repeat split; try (repeat constructor; cbn; lia); try discriminate.
    + intros t T. destruct (Z.leb_spec 40 t), (Z.leb_spec t 60); cbn [andb orb]; intros K; try lra; exfalso; revert K;
      destruct (Z.ltb_spec 40 (t + 1)), (Z.ltb_spec 60 (t + 1)); intros K; try discriminate; lia.
  - cbn. repeat constructor; cbn; lia.
  - intros i s e. split; [unfold pass_events; cbn zeta; cbn [fst snd]; now rewrite !map_length|]. unfold pass_events, event_list. cbn.
    destruct ((s <=? 40) && (40 <? e)), ((s <=? 60) && (60 <? e)); reflexivity.
  - vm_compute. reflexivity.
  - vm_compute. reflexivity.
  - vm_compute. reflexivity.
Qed.
