(** Property theorems C166-C167: analyses from the visibility of satellites to the report. *)
From Coq Require Import String ZArith QArith List Bool Sorting.Sorted Sorting.Permutation Lia.
From Verif Require Import Base BaseFacts Coverage_Model Coverage_Spec Latency_Model Latency_Spec Whole_Spec Whole_Proofs.
Import ListNotations.
Open Scope Z_scope.

(** *** C166 *)
(** What is reported as covered is what some instrument had in view, instant by instant. *)
Theorem c166_coverage_is_visibility :
  forall {C S} srt srt' (members : C -> list S) n_inst sats pts out start end_ maxacc ev b name inst req valid fp collect,
  is_sort o_start srt -> is_sort o_start srt' -> start < end_ ->
  observes start end_ maxacc ev name inst req valid fp collect -> takes_all req valid fp ->
  (forall p, In p pts -> collect_multi_observations srt members n_inst (collect p) sats = Ok (out p)) ->
  (forall p s i, sky start end_ (maxacc p s i) (b p s i) (ev p s i)) ->
  forall p t, In p pts -> start < t < end_ ->
  (covered (agg_intervals p (aggregate_observations srt' (flat_map out pts))) (inject_Z t)
   <-> some_instrument sats members n_inst (fun s i => in_view (b p s i) (ev p s i) t)).
Proof. exact @chain_visibility_lemma. Qed.
Print Assumptions c166_coverage_is_visibility.
(** With requirements: what lies in a pass that meets them. *)
Theorem c166_coverage_is_accepted_passes :
  forall {C S} srt srt' (members : C -> list S) n_inst sats pts out start end_ maxacc ev name inst req valid fp collect,
  is_sort o_start srt -> is_sort o_start srt' -> start <= end_ ->
  observes start end_ maxacc ev name inst req valid fp collect ->
  (forall p, In p pts -> collect_multi_observations srt members n_inst (collect p) sats = Ok (out p)) ->
  (forall s i, acc_fixed (req s i) = false) -> (forall p s i, in_window start end_ (ev p s i)) ->
  forall p t, In p pts ->
  (covered (agg_intervals p (aggregate_observations srt' (flat_map out pts))) t
   <-> some_instrument sats members n_inst (fun s i => exists iv l r,
         visible_intervals start end_ (maxacc p s i) (ev p s i) = Ok iv /\ In (l, r) iv
         /\ accepted_pass (req s i) (valid p s i) (fp p s i) l r
         /\ (inject_Z l <= t)%Q /\ (t <= inject_Z r)%Q)).
Proof. exact @chain_passes_lemma. Qed.
Print Assumptions c166_coverage_is_accepted_passes.
(** The mean access and revisit of a point account for all the time from its first to its last observation. *)
Theorem c166_reduced_accounting : forall srt rows r, is_sort o_start srt -> proper rows ->
  In r (reduce_observations (aggregate_observations srt rows)) ->
  (r_access r * inject_Z (r_samples r)
   + match r_revisit r with None => 0 | Some m => m * inject_Z (r_samples r - 1) end
   == inject_Z (time_span (rows_of (r_point r) (aggregate_observations srt rows))))%Q.
Proof. exact reduced_accounting_lemma. Qed.
Print Assumptions c166_reduced_accounting.

(** Two satellites over two points; the passes over point 7 overlap. *)
Definition c166_ev (p s : Z) (i : nat) : events := if p =? 7 then ex_ev s (mk_station "" 0) else [(300, Rise); (310, SetEv)].
Definition c166_collect (p s : Z) (i : nat) : list obs :=
  collect_observations p (ex_name s) "i" {| acc_fixed := false; acc_min := 0 |} (fun _ => true) None
    (if p =? 7 then ex_per s (mk_station "" 0) else [(300, 310)]).
Definition c166_out (p : Z) : list obs := sort_by o_start (flat_map (fun s => c166_collect p s 0%nat) [1; 2]).
Example c166_witness :
  observes 0 1000 (fun _ _ _ => 60) c166_ev ex_name (fun _ _ => "i"%string) (fun _ _ => {| acc_fixed := false; acc_min := 0 |})
    (fun _ _ _ _ => true) (fun _ _ _ => None) c166_collect
  /\ takes_all (fun (_ : Z) _ => {| acc_fixed := false; acc_min := 0 |}) (fun _ _ _ _ => true) (fun _ _ _ => None)
  /\ (forall p, In p [7; 8] -> collect_multi_observations (sort_by o_start) (fun s : Z => [s]) (fun _ => 1%nat) (c166_collect p) [1; 2]
        = Ok (c166_out p))
  /\ (forall p s i, sky 0 1000 60 false (c166_ev p s i))
  /\ agg_intervals 7 (aggregate_observations (sort_by o_start) (flat_map c166_out [7; 8])) = [(5, 150); (500, 600)]
  /\ agg_intervals 8 (aggregate_observations (sort_by o_start) (flat_map c166_out [7; 8])) = [(300, 310)]
  /\ map (fun r => (r_point r, Qred (r_access r), option_map Qred (r_revisit r), r_samples r))
       (reduce_observations (aggregate_observations (sort_by o_start) (flat_map c166_out [7; 8])))
     = [(7, 245 # 2, Some 350%Q, 2); (8, 10%Q, None, 1)].
Proof.
  split.
  { intros p s i. exists (if p =? 7 then ex_per s (mk_station "" 0) else [(300, 310)]).
    split; [|reflexivity]. unfold c166_ev. destruct (p =? 7); [apply ex_contacts|reflexivity]. }
  split; [intros p s i; repeat split|]. split; [intros p [<-|[<-|[]]]; reflexivity|].
  split.
  { intros p s i. unfold c166_ev. destruct (p =? 7); [apply ex_sky|].
    repeat split; try discriminate; cbn; try lia; repeat constructor; cbn; lia. }
  repeat split; reflexivity.
Qed.

(** *** C167 *)
(** The contact that counts is the earliest pass over a station that begins after the observation has ended, and the
    data are down at the middle of it. *)
Theorem c167_next_pass_partial :
  forall {S} srt_o srt_d srt_l srt (name : S -> string) sats stations start end_ maxacc b ev per rows,
  is_sort o_end srt_o -> is_sort d_start srt_d -> is_sort l_observed srt_l -> is_sort d_start srt ->
  start < end_ -> contacts start end_ maxacc ev per ->
  (forall s st, sky start end_ (maxacc s st) (b s st) (ev s st)) ->
  (forall s s', In s sats -> In s' sats -> name s = name s' -> s = s') ->
  (forall st, In st stations -> st_min_access st = 0) ->
  let downs := flat_map (fun s => collect_downlinks srt (name s) (per s) stations) sats in
  rows <> [] -> downs <> [] ->
  exists rows', Permutation rows rows'
    /\ Forall2 (fun o row => forall s, In s sats -> o_sat o = name s -> start < o_end o ->
                  next_pass_row end_ stations (b s) (ev s) o row)
         rows' (compute_latencies srt_o srt_d srt_l rows downs).
Proof. exact @latency_chain_lemma. Qed.
Print Assumptions c167_next_pass_partial.
Example c167_witness :
  contacts 0 1000 (fun _ _ => 60) ex_ev ex_per /\ (forall s st, sky 0 1000 60 false (ex_ev s st))
  /\ (forall s s', In s [1; 2] -> In s' [1; 2] -> ex_name s = ex_name s' -> s = s')
  /\ (forall st, In st [mk_station "a" 0; mk_station "b" 0] -> st_min_access st = 0)
  /\ compute_latencies (sort_by o_end) (sort_by d_start) (sort_by l_observed) [ex_obs; mk_obs 1 "t" "i" 40 45 50]
       (flat_map (fun s => collect_downlinks (sort_by d_start) (ex_name s) (ex_per s) [mk_station "a" 0; mk_station "b" 0]) [1; 2])
     = [mk_lat 1 "s" "i" (Some "a"%string) (Some 550) (Some 535) 15; mk_lat 1 "t" "i" (Some "a"%string) (Some 120) (Some 75) 45].
Proof.
  split; [exact ex_contacts|]. split; [exact ex_sky|]. split; [intros s s' [<-|[<-|[]]] [<-|[<-|[]]]; cbn; congruence|].
  split; [intros st [<-|[<-|[]]]; reflexivity|reflexivity].
Qed.
(** A satellite that observes while it is in contact with a station keeps the data until the next pass: here it stays in
    view for as long as [later], and the data come down long after that. *)
Theorem c167_first_opportunity_refuted :
  exists (stations : list station) (b : bool) (ev : events) maxacc start end_ iv o row later,
  sky start end_ maxacc b ev /\ visible_intervals start end_ maxacc ev = Ok iv /\ start < o_start o /\ o_start o <= o_end o
  /\ stations <> [] /\ (forall st, In st stations -> st_min_access st = 0)
  /\ compute_latencies (sort_by o_end) (sort_by d_start) (sort_by l_observed) [o]
       (collect_downlinks (sort_by d_start) (o_sat o) (fun _ => iv) stations) = [row]
  /\ (forall t, o_start o <= t <= later -> in_view b ev t) /\ o_end o < later
  /\ exists d, l_downlinked row = Some d /\ later + (later - o_end o) < d.
Proof. exact first_opportunity_lemma. Qed.
Print Assumptions c167_first_opportunity_refuted.
