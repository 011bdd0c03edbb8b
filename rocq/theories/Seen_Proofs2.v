(** Proofs about observations with repeat cycles. *)
From Coq Require Import String Reals ZArith List Bool Lia Lra Sorting.Permutation Sorting.Sorted.
From Verif Require Import Base BaseFacts RBase Instr_Model Coverage_Model Coverage_Spec Epoch_Model Seen_Model Whole_Spec Seen_Spec Seen_Proofs.
Import ListNotations.
Open Scope Z_scope.

(* the state after an event, and after a list of events *)
Definition nexts (e : event) : bool := match e with SetEv => false | _ => true end.
Fixpoint after (b : bool) (ev : events) : bool := match ev with [] => b | (_, e) :: r => after (nexts e) r end.
Fixpoint open_since (s : option Z) (ev : events) : option Z :=
  match ev with [] => s | (t, Rise) :: r => open_since (Some t) r | (_, Culminate) :: r => open_since s r | (_, SetEv) :: r => open_since None r end.

Lemma after_app b A B : after b (A ++ B) = after (after b A) B.
Proof. revert b. induction A as [|[t e] A IH]; intros b; [reflexivity|]. cbn. apply IH. Qed.
Lemma after_later d b ev : after b (later d ev) = after b ev.
Proof. revert b. induction ev as [|[t e] ev IH]; intros b; [reflexivity|]. cbn. apply IH. Qed.
Lemma alternates_app b A B : alternates b (A ++ B) <-> alternates b A /\ alternates (after b A) B.
Proof.
  revert b. induction A as [|[t e] A IH]; intros b; cbn; [tauto|]. destruct e; cbn; rewrite IH; tauto.
Qed.
Lemma alternates_later d b ev : alternates b (later d ev) <-> alternates b ev.
Proof. revert b. induction ev as [|[t e] ev IH]; intros b; cbn; [tauto|]. destruct e; rewrite IH; tauto. Qed.
Lemma alternates_first b b' ev : ev <> [] -> alternates b ev -> alternates b' ev -> b = b'.
Proof. destruct ev as [|[t []] ev]; [congruence| | |]; cbn; intros _ [-> _] [-> _]; reflexivity. Qed.
Lemma open_app s A B : open_since s (A ++ B) = open_since (open_since s A) B.
Proof. revert s. induction A as [|[t e] A IH]; intros s; [reflexivity|]. destruct e; cbn; apply IH. Qed.
Lemma open_later d s ev : open_since (option_map (fun t => t + d) s) (later d ev) = option_map (fun t => t + d) (open_since s ev).
Proof. revert s. induction ev as [|[t e] ev IH]; intros s; [reflexivity|]. destruct e; cbn; [apply (IH (Some t))|apply IH|apply (IH None)]. Qed.
(* a list with a rise or a set forgets what was open before *)
Lemma open_dep ev : (forall s, open_since s ev = open_since None ev) \/ (forall s, open_since s ev = s).
Proof.
  induction ev as [|[t e] ev IH]; [right; reflexivity|]. destruct e; cbn; [left; reflexivity| |left; reflexivity].
  destruct IH as [IH|IH]; [left; exact IH|right; exact IH].
Qed.
Lemma short_app d s A B : short_passes d s (A ++ B) <-> short_passes d s A /\ short_passes d (open_since s A) B.
Proof. revert s. induction A as [|[t e] A IH]; intros s; cbn; [tauto|]. destruct e; cbn; rewrite IH; tauto. Qed.
Lemma short_later d k s ev : short_passes d (option_map (fun t => t + k) s) (later k ev) <-> short_passes d s ev.
Proof.
  revert s. induction ev as [|[t e] ev IH]; intros s; cbn; [tauto|].
  destruct e; cbn.
  - apply (IH (Some t)).
  - apply IH.
  - rewrite (IH None). destruct s as [r|]; cbn; [|tauto]. intuition lia.
Qed.
Lemma above_later k b ev t : above b (later k ev) (t + k) = above b ev t.
Proof.
  revert b. induction ev as [|[te e] ev IH]; intros b; [reflexivity|]. cbn.
  destruct (Z.ltb_spec (te + k) (t + k)), (Z.ltb_spec te t); try lia; [apply IH|reflexivity].
Qed.
Lemma above_past b A B t : Forall (fun x => fst x < t) A -> above b (A ++ B) t = above (after b A) B t.
Proof.
  revert b. induction A as [|[te e] A IH]; intros b F; [reflexivity|]. inversion F; subst. cbn in *.
  destruct (Z.ltb_spec te t); [|lia]. apply IH. assumption.
Qed.
Lemma above_future b A B t : Forall (fun x => t <= fst x) B -> above b (A ++ B) t = above b A t.
Proof.
  revert b. induction A as [|[te e] A IH]; intros b F; cbn.
  - destruct B as [|[te e] B]; [reflexivity|]. inversion F; subst. cbn in *. destruct (Z.ltb_spec te t); [lia|reflexivity].
  - destruct (te <? t); [apply IH; exact F|reflexivity].
Qed.

Lemma chron_app_l A B : chronological (A ++ B) -> chronological A.
Proof.
  unfold chronological. induction A as [|x A IH]; intros C; [constructor|]. cbn in C. apply StronglySorted_inv in C as [C F].
  constructor; [now apply IH|]. apply Forall_app in F. tauto.
Qed.

Section Cycle.
Variables (start c : Z) (base : events) (b : bool) (maxacc : Z).
Hypothesis Hc : 0 < c.
Hypothesis SK : sky start (start + 2 * c) maxacc b (base ++ later c base).
Hypothesis W : in_window start (start + c) base.

Fixpoint rep (n : nat) : events := match n with O => [] | S m => rep m ++ later (Z.of_nat m * c) base end.
Lemma later_later x y ev : later x (later y ev) = later (y + x) ev.
Proof. unfold later. rewrite map_map. apply map_ext. intros [t e]. cbn. f_equal. lia. Qed.

Lemma rep_window n : Forall (fun x => start <= fst x <= start + Z.of_nat n * c) (rep n).
Proof.
  induction n as [|n IH]; [constructor|]. cbn [rep]. apply Forall_app. split.
  - eapply Forall_impl; [|exact IH]. intros x. cbn beta. lia.
  - unfold later. apply Forall_map. eapply Forall_impl; [|exact W]. intros x. cbn [fst]. lia.
Qed.
Lemma base_after : base <> [] -> after b base = b.
Proof.
  intros N. destruct SK as (_ & _ & A & _). apply alternates_app in A as [A1 A2]. apply alternates_later in A2.
  exact (alternates_first _ _ base N A2 A1).
Qed.
Lemma base_case : base = [] \/ base <> [].
Proof. clear. destruct base; [now left|now right]. Qed.
Lemma rep_after n : after b (rep n) = b.
Proof.
  induction n as [|n IH]; [reflexivity|]. cbn [rep]. rewrite after_app, IH, after_later.
  destruct (base_case) as [E|E]; [rewrite E; reflexivity|now apply base_after].
Qed.
Lemma rep_alternates n : alternates b (rep n).
Proof.
  induction n as [|n IH]; [exact Logic.I|]. cbn [rep]. apply alternates_app. split; [exact IH|]. rewrite rep_after.
  apply alternates_later. destruct SK as (_ & _ & A & _). now apply alternates_app in A.
Qed.
Lemma base_cross x y : In x base -> In y base -> fst x < fst y + c.
Proof.
  intros HX HY. destruct SK as (C & _). unfold chronological in C.
  assert (forall A B, StronglySorted (fun a b0 : Z * event => fst a < fst b0) (A ++ B) -> forall u v, In u A -> In v B -> fst u < fst v) as Q.
  { induction A as [|p A IH]; intros B S u v []; apply StronglySorted_inv in S as [S F].
    - subst p. intros HV. rewrite Forall_forall in F. apply F. apply in_or_app. now right.
    - intros HV. now apply (IH B). }
  assert (H := Q base (later c base) C x (fst y + c, snd y) HX (in_map (fun x => (fst x + c, snd x)) _ _ HY)). exact H.
Qed.
Lemma base_chron : chronological base.
Proof.
  destruct SK as (C & _). exact (chron_app_l _ _ C).
Qed.
Lemma SS_app A B : chronological A -> chronological B -> (forall u v, In u A -> In v B -> fst u < fst v) -> chronological (A ++ B).
Proof.
  intros SA SB H. induction A as [|x A IH]; [exact SB|]. apply StronglySorted_inv in SA as [SA F]. cbn. constructor.
  - apply IH; [exact SA|]. intros u v HU. apply H. now right.
  - apply Forall_app. split; [exact F|]. apply Forall_forall. intros v HV. apply H; [now left|exact HV].
Qed.
Lemma later_chron k : chronological (later k base).
Proof.
  pose proof base_chron as C. unfold later. clear - C. induction C as [|x l C IH F]; cbn; constructor; [exact IH|].
  apply Forall_map. eapply Forall_impl; [|exact F]. intros y. cbn. lia.
Qed.
Lemma in_rep n u : In u (rep n) <-> exists k x, (k < n)%nat /\ In x base /\ u = (fst x + Z.of_nat k * c, snd x).
Proof.
  induction n as [|n IH]; cbn [rep].
  - split; [intros []|]. intros (k & x & K & _). lia.
  - rewrite in_app_iff, IH. split.
    + intros [(k & x & K & X & E)|H]; [exists k, x; repeat split; try assumption; lia|].
      unfold later in H. apply in_map_iff in H as (x & <- & X). exists n, x. repeat split; [lia|assumption].
    + intros (k & x & K & X & E). destruct (Nat.eq_dec k n) as [->|NE].
      * right. unfold later. apply in_map_iff. exists x. split; [now symmetry|exact X].
      * left. exists k, x. repeat split; try assumption. lia.
Qed.
Lemma rep_chron n : chronological (rep n).
Proof.
  induction n as [|n IH]; [constructor|]. cbn [rep]. apply SS_app; [exact IH|apply later_chron|].
  intros u v HU HV. apply in_rep in HU as (k & x & K & X & ->). unfold later in HV. apply in_map_iff in HV as (y & <- & Y). cbn [fst].
  pose proof (base_cross x y X Y). nia.
Qed.
Lemma rep_open n : (1 <= n)%nat -> open_since None (rep n) = option_map (fun t => t + (Z.of_nat n - 1) * c) (open_since None base).
Proof.
  intros H. destruct n as [|n]; [lia|]. induction n as [|n IH].
  - cbn [rep Nat.add]. rewrite app_nil_l. change (Z.of_nat 0 * c) with 0. change ((Z.of_nat 1 - 1) * c) with 0.
    rewrite <- (open_later 0 None base). reflexivity.
  - change (rep (S (S n))) with (rep (S n) ++ later (Z.of_nat (S n) * c) base). rewrite open_app, IH by lia.
    replace (Z.of_nat (S (S n)) - 1) with (Z.of_nat (S n)) by lia.
    rewrite <- (open_later (Z.of_nat (S n) * c) None base). destruct (open_dep (later (Z.of_nat (S n) * c) base)) as [D|D]; [exact (D _)|].
    rewrite !D. assert (E : open_since None base = None).
    { pose proof (open_later (Z.of_nat (S n) * c) None base) as O. cbn [option_map] in O. rewrite D in O. destruct (open_since None base); [discriminate|reflexivity]. }
    rewrite E. reflexivity.
Qed.
Lemma rep_short n : short_passes (2 * maxacc) None (rep n).
Proof.
  destruct SK as (_ & _ & _ & S & _). apply short_app in S as [S1 S2].
  induction n as [|n IH]; [exact Logic.I|]. cbn [rep]. apply short_app. split; [exact IH|]. destruct n as [|n].
  - cbn [rep open_since]. change (Z.of_nat 0 * c) with 0. apply (short_later _ 0 None). exact S1.
  - rewrite rep_open by lia. replace (later (Z.of_nat (S n) * c) base) with (later (Z.of_nat n * c) (later c base)) by (rewrite later_later; f_equal; lia).
    replace (Z.of_nat (S n) - 1) with (Z.of_nat n) by lia. apply short_later. exact S2.
Qed.
(* in the k-th cycle the satellite is in view iff it is at the same time of the first *)
Lemma rep_above n k t : (k < n)%nat -> start + Z.of_nat k * c < t <= start + (Z.of_nat k + 1) * c ->
  above b (rep n) t = above b base (t - Z.of_nat k * c).
Proof.
  intros K T.
  assert (E : exists R, rep n = rep k ++ later (Z.of_nat k * c) base ++ R /\ Forall (fun x => t <= fst x) R).
  { induction n as [|n IH]; [lia|]. cbn [rep]. destruct (Nat.eq_dec k n) as [->|NE].
    - exists []. rewrite app_nil_r. split; [reflexivity|constructor].
    - destruct IH as (R & E & F); [lia|]. exists (R ++ later (Z.of_nat n * c) base). split; [rewrite E, !app_assoc; reflexivity|].
      apply Forall_app. split; [exact F|]. unfold later. apply Forall_map. eapply Forall_impl; [|exact W]. intros x. cbn [fst]. intros X.
      assert (Z.of_nat k + 1 <= Z.of_nat n) by lia. nia. }
  destruct E as (R & -> & F). rewrite above_past.
  - rewrite rep_after, above_future by exact F. rewrite <- (above_later (Z.of_nat k * c) b base (t - Z.of_nat k * c)). f_equal. lia.
  - eapply Forall_impl; [|apply rep_window]. intros x. cbn beta. lia.
Qed.

(* a chronological list cut at a time *)
Lemma cut_prefix ev e : chronological ev -> exists R, ev = filter (fun x => fst x <=? e) ev ++ R /\ Forall (fun x => e < fst x) R.
Proof.
  intros C. induction C as [|x l C IH F]; [exists []; split; [reflexivity|constructor]|]. cbn [filter].
  destruct (Z.leb_spec (fst x) e) as [L|L].
  - destruct IH as (R & E & FR). exists R. split; [cbn; f_equal; exact E|exact FR].
  - exists (x :: l). split.
    + assert (Q : filter (fun x => fst x <=? e) l = []).
      { clear -F L. induction F as [|y l H F IH]; [reflexivity|]. cbn. destruct (Z.leb_spec (fst y) e); [lia|exact IH]. }
      rewrite Q. reflexivity.
    + constructor; [exact L|]. eapply Forall_impl; [|exact F]. intros y. cbn. lia.
Qed.

Theorem cycle_lemma n end_ theta alt : start + c < end_ -> end_ <= start + Z.of_nat n * c -> (forall t, alt (t + c) = alt t) ->
  (forall t, start <= t < start + c -> above b base (t + 1) = true -> (theta <= alt t)%R) ->
  tells start end_ maxacc theta alt (filter (fun x => fst x <=? end_) (rep n)).
Proof.
  intros L N P T. exists b.
  destruct (cut_prefix (rep n) end_ (rep_chron n)) as (R & E & F). set (ev := filter _ (rep n)) in *.
  assert (C0 := rep_chron n). rewrite E in C0. assert (A0 := rep_alternates n). rewrite E in A0. apply alternates_app in A0 as [A0 _].
  assert (S0 := rep_short n). rewrite E in S0. apply short_app in S0 as [S0 _]. split.
  - split; [|split; [|split; [exact A0|split; [exact S0|]]]].
    + exact (chron_app_l _ _ C0).
    + unfold in_window. apply Forall_forall. intros x HX. unfold ev in HX. apply filter_In in HX as [HX LE]. apply Z.leb_le in LE.
      pose proof (rep_window n) as RW. rewrite Forall_forall in RW. specialize (RW x HX). lia.
    + intros EE. destruct base_case as [EB|EB].
      * destruct SK as (_ & _ & _ & _ & Q). rewrite EB in Q. apply Q. reflexivity.
      * exfalso. assert (exists x, In x base) as [x XB] by (clear - EB; destruct base as [|x l]; [congruence|exists x; now left]). assert (HX : In (fst x + Z.of_nat 0 * c, snd x) (rep n)).
        { apply in_rep. exists 0%nat, x. split; [destruct n; [cbn in N; lia|lia]|]. split; [exact XB|reflexivity]. }
        assert (HE : In (fst x + Z.of_nat 0 * c, snd x) ev).
        { apply filter_In. split; [exact HX|]. cbn [fst]. apply Z.leb_le. pose proof W as W0. unfold in_window in W0. rewrite Forall_forall in W0. specialize (W0 x XB). lia. }
        rewrite EE in HE. destruct HE.
  - intros t HT AB. assert (AB' : above b (rep n) (t + 1) = true).
    { rewrite E, above_future; [exact AB|]. eapply Forall_impl; [|exact F]. intros x. cbn beta. lia. }
    set (k := Z.to_nat ((t - start) / c)). pose proof (Z.div_mod (t - start) c) as D. pose proof (Z.mod_pos_bound (t - start) c Hc) as M.
    assert (K0 : 0 <= (t - start) / c) by (apply Z.div_pos; lia). assert (KE : Z.of_nat k = (t - start) / c) by (unfold k; lia).
    assert (KN : (k < n)%nat). { assert (Z.of_nat k < Z.of_nat n); [|lia]. rewrite KE. apply Z.div_lt_upper_bound; lia. }
    rewrite (rep_above n k) in AB' by (try exact KN; rewrite KE; lia).
    replace (t + 1 - Z.of_nat k * c) with (t - Z.of_nat k * c + 1) in AB' by lia. apply T in AB'; [|rewrite KE; lia].
    replace (alt t) with (alt (t - Z.of_nat k * c)); [exact AB'|]. clear - P.
    assert (Q : forall m u, alt (u + Z.of_nat m * c) = alt u).
    { induction m as [|m IH]; intros u; [f_equal; lia|]. rewrite <- (IH u), <- (P (u + Z.of_nat m * c)). f_equal. lia. }
    rewrite <- (Q k (t - Z.of_nat k * c)). f_equal. lia.
Qed.
End Cycle.

(* ---- The events of get_observation_events ---- *)
Lemma combine_app_ {A B} (l1 l2 : list A) (k1 k2 : list B) : length l1 = length k1 -> combine (l1 ++ l2) (k1 ++ k2) = combine l1 k1 ++ combine l2 k2.
Proof. revert k1. induction l1 as [|x l1 IH]; intros [|y k1] L; try discriminate; [reflexivity|]. cbn. f_equal. apply IH. now injection L. Qed.
Lemma rep_events c ts cs n : length ts = length cs ->
  combine (flat_map (fun i => map (fun t => t + Z.of_nat i * c) ts) (seq 0 n)) (map event_of (flat_map (fun _ : nat => cs) (seq 0 n)))
  = rep c (event_list (ts, cs)) n.
Proof.
  intros L. induction n as [|n IH]; [reflexivity|]. rewrite seq_S, !flat_map_app, map_app. cbn [Nat.add flat_map]. rewrite !app_nil_r.
  rewrite combine_app_.
  - rewrite IH. cbn [rep]. f_equal. unfold event_list, later. cbn [fst snd]. clear. revert cs. induction ts as [|t ts IH]; intros [|x cs]; try reflexivity. cbn. f_equal. apply IH.
  - clear IH. rewrite map_length. induction (seq 0 n) as [|i l IH]; [reflexivity|]. cbn. rewrite !app_length, map_length, IH. lia.
Qed.
Lemma mask_events end_ ts cs : length ts = length cs ->
  event_list (mask (map (fun t => t <=? end_) ts) ts, mask (map (fun t => t <=? end_) ts) cs) = filter (fun x => fst x <=? end_) (combine ts (map event_of cs)).
Proof.
  unfold event_list, mask. cbn [fst snd]. revert cs. induction ts as [|t ts IH]; intros [|x cs] L; try discriminate; [reflexivity|]. cbn [map combine filter fst snd].
  destruct (t <=? end_); cbn [map combine filter fst snd]; [f_equal|]; apply IH; now injection L.
Qed.
Lemma flat_lengths {A B} (f : nat -> list A) (g : nat -> list B) l : (forall i, length (f i) = length (g i)) -> length (flat_map f l) = length (flat_map g l).
Proof. intros H. induction l as [|i l IH]; [reflexivity|]. cbn. rewrite !app_length, H, IH. reflexivity. Qed.
Lemma repeat_list fe c start end_ : length (fst (fe 0%nat start (start + c))) = length (snd (fe 0%nat start (start + c))) ->
  event_list (repeat_events fe c start end_)
  = filter (fun x => fst x <=? end_) (rep c (event_list (fe 0%nat start (start + c))) (Z.to_nat (ceil_div (end_ - start) c))).
Proof.
  unfold repeat_events. destruct (fe 0%nat start (start + c)) as [ts cs]. cbn [fst snd]. intros L.
  destruct (Nat.eqb_spec (length ts) 0) as [E|E].
  - destruct ts; [|discriminate]. destruct cs; [|discriminate]. cbn. induction (Z.to_nat _) as [|n IH]; [reflexivity|]. cbn [rep]. rewrite filter_app, <- IH. reflexivity.
  - rewrite mask_events; [rewrite rep_events by exact L; reflexivity|]. apply flat_lengths. intros i. rewrite map_length. exact L.
Qed.
Lemma ceil_bounds a c : 0 < c -> a <= Z.of_nat (Z.to_nat (ceil_div a c)) * c.
Proof.
  intros H. unfold ceil_div. pose proof (Z.div_mod (- a) c). pose proof (Z.mod_pos_bound (- a) c H).
  destruct (Z.le_gt_cases 0 (- ((- a) / c))) as [L|L]; [rewrite Z2Nat.id by exact L; nia|]. assert (Z.of_nat (Z.to_nat (- (- a / c))) = 0) as -> by lia. nia.
Qed.

(* the default: repeat cycles for events and tracks *)
Theorem elevation_repeat : forall argsort find_events sat_seen sunlit sun_seen hour_angle footprint o e0 c pid sat inst a q start end_ maxacc omit theta alt rows,
  start < end_ -> so_epochs o = [e0] -> so_repeat_events o = true -> so_repeat_track o = true -> so_cycle o = Some c -> 0 < c ->
  (forall t, alt (t + c) = alt t) -> (forall t, start <= t < end_ -> fst (sat_seen (0%nat, fold_time e0 c t) t) = alt t) ->
  (c < end_ - start -> length (fst (find_events 0%nat start (start + c))) = length (snd (find_events 0%nat start (start + c)))
     /\ cycle_tells start c maxacc theta alt (event_list (find_events 0%nat start (start + c)))) ->
  (end_ - start <= c -> tells start end_ maxacc theta alt (event_list (find_events 0%nat start end_))) ->
  collect_seen argsort find_events sat_seen sunlit sun_seen hour_angle footprint o pid sat inst a q start end_ maxacc omit = Ok rows ->
  Forall (fun r => (theta <= fst (s_sat r))%R) rows.
Proof.
  intros argsort fe ss sl su ha fp o e0 c pid sat inst a q start end_ maxacc omit theta alt rows SE EP RE RT CY C P FO SHORT LONG. apply elevation_general; [exact SE|].
  assert (T : tells start end_ maxacc theta alt (event_list (get_observation_events fe argsort (so_epochs o) (so_repeat_events o) (so_cycle o) start end_))).
  { rewrite EP, RE, CY. unfold get_observation_events. cbn [length Nat.ltb Nat.leb]. destruct (Z.ltb_spec c (end_ - start)) as [L|L]; [|apply LONG; exact L].
    destruct (SHORT L) as (LE & b & SK & W & T). rewrite repeat_list by exact LE. apply (cycle_lemma start c _ b maxacc C SK W); [lia| |exact P|exact T].
    pose proof (ceil_bounds (end_ - start) c C). lia. }
  destruct T as (b & SK & T). exists b. split; [exact SK|]. intros t HT AB. unfold state_at, orbit_track. rewrite EP, RT, CY. cbn [length Nat.ltb Nat.leb map hd nth].
  rewrite FO by exact HT. exact (T t HT AB).
Qed.
(* a pass that begins before the seam and ends after it *)
Lemma cycle_witness : cycle_tells 0 50 20 10 (fun t => if ((t mod 50) <=? 5) || (45 <=? t mod 50) then 30 else 0)%R (event_list ([5; 45], [2; 0])).
Proof.
  exists true. cbn. split; [|split].
  - unfold sky, chronological, in_window. repeat split; try (repeat constructor; cbn; lia); try discriminate.
  - repeat constructor; cbn; lia.
  - intros t T. rewrite Z.mod_small by lia. destruct (Z.leb_spec t 5), (Z.leb_spec 45 t); cbn [orb]; intros K; try lra; exfalso; revert K;
    destruct (Z.ltb_spec 5 (t + 1)), (Z.ltb_spec 45 (t + 1)); intros K; try discriminate; lia.
Qed.
