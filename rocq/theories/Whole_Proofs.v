(** Proofs about analyses taken from the visibility of satellites to the report. *)
From Coq Require Import String ZArith QArith List Bool Sorting.Sorted Sorting.Permutation Lia.
From Verif Require Import Base BaseFacts Coverage_Model Coverage_Spec Coverage_Proofs1 Coverage_Proofs2 Coverage_Proofs3
  Coverage_Props Latency_Model Latency_Spec Latency_Proofs Latency_Props Whole_Spec.
Import ListNotations.
Open Scope Z_scope.

(** ** Visible intervals as closed intervals *)

Lemma above_next : forall ev b t, chronological ev -> alternates b ev ->
  above b ev (t + 1) = true -> in_view b ev t.
Proof.
  induction ev as [|[te e] r IH]; intros b t C A H; [now left|].
  unfold in_view. cbn [above] in *. apply StronglySorted_inv in C as [C F].
  destruct (te <? t) eqn:E.
  - apply Z.ltb_lt in E. replace (te <? t + 1) with true in H by (symmetry; apply Z.ltb_lt; lia).
    assert (A' : alternates (match e with SetEv => false | _ => true end) r) by (destruct e; now destruct A).
    destruct (IH _ t C A' H) as [K|K]; [now left|right; now right].
  - apply Z.ltb_ge in E. destruct (te <? t + 1) eqn:E'.
    + apply Z.ltb_lt in E'. assert (te = t) as -> by lia.
      destruct e; [right; now left| |]; destruct A as [-> A]; now left.
    + now left.
Qed.

Lemma above_rise : forall ev b t, chronological ev -> alternates b ev -> In (t, Rise) ev -> above b ev (t + 1) = true.
Proof.
  induction ev as [|[te e] r IH]; intros b t C A H; [destruct H|].
  cbn [above]. apply StronglySorted_inv in C as [C F]. rewrite Forall_forall in F. destruct H as [H|H].
  - injection H as -> ->. replace (t <? t + 1) with true by (symmetry; apply Z.ltb_lt; lia).
    destruct r as [|[t' e'] r]; [reflexivity|]. cbn [above].
    specialize (F _ (or_introl eq_refl)). cbn in F. replace (t' <? t + 1) with false by (symmetry; apply Z.ltb_ge; lia). reflexivity.
  - specialize (F _ H). cbn in F. replace (te <? t + 1) with true by (symmetry; apply Z.ltb_lt; lia).
    apply IH; [exact C|destruct e; now destruct A|exact H].
Qed.

Lemma visible_closed start end_ maxacc b ev : start < end_ -> sky start end_ maxacc b ev ->
  exists iv, visible_intervals start end_ maxacc ev = Ok iv
    /\ (forall i, In i iv -> fst i < snd i)
    /\ forall t, start < t < end_ -> ((exists i, In i iv /\ fst i <= t <= snd i) <-> in_view b ev t).
Proof.
  intros L (C & W & A & S & N).
  destruct (c53_visible_intervals_in_window start end_ maxacc ev (Z.lt_le_incl _ _ L) W) as (iv & E & F).
  exists iv. split; [exact E|]. rewrite Forall_forall in F.
  split; [intros i Hi; now apply F|]. intros t T.
  destruct ev as [|e0 ev0] eqn:EV.
  - injection E as <-. rewrite (N eq_refl). split; [intros (i & [] & _)|intros [K|[]]; discriminate].
  - destruct (c52_visible_intervals_exact start end_ maxacc (e0 :: ev0) b (Z.lt_le_incl _ _ L)
               ltac:(discriminate) C W A S) as (iv' & E' & X).
    rewrite E in E'. injection E' as <-. split.
    + intros (i & Hi & L1 & L2). destruct (Z.eq_dec (fst i) t) as [Q|Q].
      * destruct (F i Hi) as (_ & _ & Z1 & Z2). specialize (Z2 L).
        apply above_next; [exact C|exact A|]. apply X; [lia|]. exists i. split; [exact Hi|lia].
      * left. apply X; [lia|]. exists i. split; [exact Hi|lia].
    + intros [K|K].
      * apply X in K as (i & Hi & K); [|lia]. exists i. split; [exact Hi|lia].
      * apply (above_rise _ b) in K; [|exact C|exact A]. apply X in K as (i & Hi & K); [|lia]. exists i. split; [exact Hi|lia].
Qed.

Lemma Forall2_impl_gen {A B} (P Q : A -> B -> Prop) : (forall a b, P a b -> Q a b) -> forall l m, Forall2 P l m -> Forall2 Q l m.
Proof. intros H l m F. induction F; constructor; auto. Qed.

(** ** From passes to aggregated coverage *)

Lemma covered_intervals p rows t : covered (obs_intervals p rows) t <->
  exists o, In o rows /\ o_point o = p /\ (inject_Z (o_start o) <= t)%Q /\ (t <= inject_Z (o_end o))%Q.
Proof.
  unfold covered, obs_intervals. split.
  - intros (i & Hi & A & B). apply in_map_iff in Hi as (o & <- & Ho). apply filter_In in Ho as [Ho K]. apply Z.eqb_eq in K.
    exists o. now repeat split.
  - intros (o & Ho & K & A & B). exists (o_start o, o_end o). split; [|now split].
    apply in_map_iff. exists o. split; [reflexivity|]. apply filter_In. split; [exact Ho|now apply Z.eqb_eq].
Qed.

Section Chain.
Context {C S : Type} (srt srt' : list obs -> list obs) (members : C -> list S) (n_inst : S -> nat) (sats : list C)
  (pts : list Z) (out : Z -> list obs) (start end_ : Z) (maxacc : Z -> S -> nat -> Z) (ev : Z -> S -> nat -> events)
  (name : S -> string) (inst : S -> nat -> string) (req : S -> nat -> access_req) (valid : Z -> S -> nat -> Z -> bool)
  (fp : Z -> S -> nat -> option (Z -> bool)) (collect : Z -> S -> nat -> list obs).
Hypothesis SO : is_sort o_start srt.
Hypothesis SO' : is_sort o_start srt'.
Hypothesis OB : observes start end_ maxacc ev name inst req valid fp collect.
Hypothesis MU : forall p, In p pts -> collect_multi_observations srt members n_inst (collect p) sats = Ok (out p).

Lemma out_in p o : In p pts -> (In o (out p) <-> some_instrument sats members n_inst (fun s i => In o (collect p s i))).
Proof.
  intro P. destruct (c57_multi_collection srt members n_inst (collect p) sats (out p) SO (MU p P)) as [_ PE].
  split.
  - intro H. apply (Permutation_in _ PE) in H. apply in_concat in H as (l & Hl & Ho).
    apply in_flat_map in Hl as (c & Hc & Hl). apply in_flat_map in Hl as (s & Hs & Hl). apply in_map_iff in Hl as (i & <- & Hi).
    apply in_seq in Hi. exists c, s, i. repeat split; try assumption. lia.
  - intros (c & s & i & Hc & Hs & Hi & Ho). apply (Permutation_in _ (Permutation_sym PE)). apply in_concat.
    exists (collect p s i). split; [|exact Ho]. apply in_flat_map. exists c. split; [exact Hc|].
    apply in_flat_map. exists s. split; [exact Hs|]. apply in_map_iff. exists i. split; [reflexivity|]. apply in_seq. lia.
Qed.

Lemma out_point p o : In p pts -> In o (out p) -> o_point o = p.
Proof.
  intros P H. apply out_in in H as (c & s & i & _ & _ & _ & H); [|exact P].
  destruct (OB p s i) as (iv & _ & E). rewrite E in H. apply c55_collect_observations_filter in H as (l & r & mid & H). tauto.
Qed.

Hypothesis FX : forall s i, acc_fixed (req s i) = false.
Hypothesis IV : forall p s i iv, visible_intervals start end_ (maxacc p s i) (ev p s i) = Ok iv -> forall j, In j iv -> fst j <= snd j.

Lemma rows_proper : proper (flat_map out pts).
Proof.
  apply Forall_forall. intros o H. apply in_flat_map in H as (p & P & H).
  apply out_in in H as (c & s & i & _ & _ & _ & H); [|exact P]. destruct (OB p s i) as (iv & V & E). rewrite E in H.
  apply c55_collect_observations_filter in H as (l & r & mid & Hp & _ & _ & _ & _ & _ & _ & _ & _ & HF & _).
  destruct (HF (FX s i)) as [-> ->]. exact (IV p s i iv V _ Hp).
Qed.

Lemma chain_covered p t : In p pts ->
  (covered (agg_intervals p (aggregate_observations srt' (flat_map out pts))) t
   <-> some_instrument sats members n_inst (fun s i => exists iv l r,
         visible_intervals start end_ (maxacc p s i) (ev p s i) = Ok iv /\ In (l, r) iv
         /\ accepted_pass (req s i) (valid p s i) (fp p s i) l r
         /\ (inject_Z l <= t)%Q /\ (t <= inject_Z r)%Q)).
Proof.
  intro P. rewrite (c58_aggregate_same_coverage srt' (flat_map out pts) p t SO' rows_proper), covered_intervals. split.
  - intros (o & Ho & K & A & B). apply in_flat_map in Ho as (q & Q & Ho).
    assert (q = p) as -> by (rewrite <- K; symmetry; now apply out_point).
    apply out_in in Ho as (c & s & i & Hc & Hs & Hi & Ho); [|exact P]. exists c, s, i. split; [exact Hc|]. split; [exact Hs|]. split; [exact Hi|].
    destruct (OB p s i) as (iv & V & E). rewrite E in Ho.
    apply c55_collect_observations_filter in Ho as (l & r & mid & Hp & -> & M & VA & FP & _ & _ & _ & _ & HF & _).
    destruct (HF (FX s i)) as [E1 E2]. rewrite E1 in A. rewrite E2 in B. exists iv, l, r. unfold accepted_pass. tauto.
  - intros (c & s & i & Hc & Hs & Hi & iv & l & r & V & Hp & (M & VA & FP) & A & B).
    destruct (OB p s i) as (iv' & V' & E). rewrite V in V'. injection V' as <-.
    set (o := mk_obs p (name s) (inst s i) l (l + (r - l) / 2) r).
    assert (Ho : In o (collect p s i)).
    { rewrite E. apply c55_collect_observations_filter. exists l, r, (l + (r - l) / 2).
      repeat (split; [first [assumption|reflexivity]|]). split; [intro; now split|]. intro K. rewrite (FX s i) in K. discriminate. }
    exists o. split; [|repeat split; assumption]. apply in_flat_map. exists p. split; [exact P|].
    apply out_in; [exact P|]. exists c, s, i. tauto.
Qed.
End Chain.

Lemma chain_passes_lemma : forall {C S} srt srt' (members : C -> list S) n_inst sats pts out start end_ maxacc ev name inst req valid fp collect,
  is_sort o_start srt -> is_sort o_start srt' -> start <= end_ ->
  observes start end_ maxacc ev name inst req valid fp collect ->
  (forall p, In p pts -> collect_multi_observations srt members n_inst (collect p) sats = Ok (out p)) ->
  (forall s i, acc_fixed (req s i) = false) -> (forall p s i, in_window start end_ (ev p s i)) ->
  forall p t, In p pts ->
  (covered (agg_intervals p (aggregate_observations srt' (flat_map out pts))) t
   <-> some_instrument sats members n_inst (fun s i => exists iv l r,
         visible_intervals start end_ (maxacc p s i) (ev p s i) = Ok iv /\ In (l, r) iv
         /\ accepted_pass (req s i) (valid p s i) (fp p s i) l r
         /\ (inject_Z l <= t)%Q /\ (t <= inject_Z r)%Q)).
Proof.
  intros C S srt srt' members n_inst sats pts out start end_ maxacc ev name inst req valid fp collect SO SO' L OB MU FX W p t P.
  apply (chain_covered srt srt' members n_inst sats pts out start end_ maxacc ev name inst req valid fp collect SO SO' OB MU FX); [|exact P].
  intros q s i iv V j Hj.
  destruct (c53_visible_intervals_in_window start end_ (maxacc q s i) (ev q s i) L (W q s i)) as (iv' & E & F).
  rewrite V in E. injection E as <-. rewrite Forall_forall in F. destruct (F j Hj) as (_ & K & _). exact K.
Qed.

Lemma chain_visibility_lemma : forall {C S} srt srt' (members : C -> list S) n_inst sats pts out start end_ maxacc ev b name inst req valid fp collect,
  is_sort o_start srt -> is_sort o_start srt' -> start < end_ ->
  observes start end_ maxacc ev name inst req valid fp collect -> takes_all req valid fp ->
  (forall p, In p pts -> collect_multi_observations srt members n_inst (collect p) sats = Ok (out p)) ->
  (forall p s i, sky start end_ (maxacc p s i) (b p s i) (ev p s i)) ->
  forall p t, In p pts -> start < t < end_ ->
  (covered (agg_intervals p (aggregate_observations srt' (flat_map out pts))) (inject_Z t)
   <-> some_instrument sats members n_inst (fun s i => in_view (b p s i) (ev p s i) t)).
Proof.
  intros C S srt srt' members n_inst sats pts out start end_ maxacc ev b name inst req valid fp collect SO SO' L OB TA MU SK p t P T.
  rewrite (chain_passes_lemma srt srt' members n_inst sats pts out start end_ maxacc ev name inst req valid fp collect SO SO'
             (Z.lt_le_incl _ _ L) OB MU) ; [|intros s i; destruct (TA 0 s i) as [-> _]; reflexivity|intros q s i; apply (SK q s i)|exact P].
  split; intros (c & s & i & Hc & Hs & Hi & H); exists c, s, i; (split; [exact Hc|]; split; [exact Hs|]; split; [exact Hi|]).
  - destruct H as (iv & l & r & V & Hp & _ & A & B). rewrite <- Zle_Qle in A, B.
    destruct (visible_closed start end_ _ _ _ L (SK p s i)) as (iv' & V' & _ & X). rewrite V in V'. injection V' as <-.
    apply X; [exact T|]. exists (l, r). split; [exact Hp|now split].
  - destruct (visible_closed start end_ _ _ _ L (SK p s i)) as (iv & V & N & X). destruct (proj2 (X t T) H) as ([l r] & Hp & A & B).
    exists iv, l, r. destruct (TA p s i) as (-> & VA & ->). rewrite <- !Zle_Qle. specialize (N _ Hp). cbn in N, A, B.
    split; [exact V|]. split; [exact Hp|]. split; [|now split]. split; [cbn; lia|]. split; [apply VA|discriminate].
Qed.

(** ** Accounting of the reduced table *)

Lemma revisits_some : forall l e, revisits (Some e) l ->
  length (filter_some (map a_revisit l)) = length l
  /\ fold_right Z.add 0 (filter_some (map a_revisit l)) = sum_Z (map revisit_or_zero l).
Proof.
  induction l as [|a l IH]; intros e H; [now split|]. destruct H as [H HR]. apply IH in HR as [A B].
  cbn [map filter_some]. unfold revisit_or_zero at 1. destruct (a_revisit a) as [g|]; [|contradiction].
  cbn [filter_some length fold_right map]. rewrite A, B. split; reflexivity.
Qed.

Lemma reduced_accounting_lemma : forall srt rows r, is_sort o_start srt -> proper rows ->
  In r (reduce_observations (aggregate_observations srt rows)) ->
  (r_access r * inject_Z (r_samples r)
   + match r_revisit r with None => 0 | Some m => m * inject_Z (r_samples r - 1) end
   == inject_Z (time_span (rows_of (r_point r) (aggregate_observations srt rows))))%Q.
Proof.
  intros srt rows r SO PR H. set (A := aggregate_observations srt rows) in *.
  destruct (c62_reduce A) as (_ & KE & X). destruct (X r H) as (N & (_ & M) & R). clear X.
  assert (NE : rows_of (r_point r) A <> []) by (apply KE, in_map_iff; now exists r).
  pose proof (c61_revisit srt rows (r_point r) SO PR) as RV. fold A in RV.
  destruct (rows_of (r_point r) A) as [|a l] eqn:E; [congruence|].
  pose proof (c61_time_accounting srt rows (r_point r) a l SO PR E) as T.
  rewrite map_length in M. rewrite N. rewrite M. cbn [revisits] in RV. destruct RV as [R0 RV].
  destruct (a_revisit a) as [g|] eqn:RA; [contradiction|]. apply revisits_some in RV as [L S].
  unfold time_span. rewrite <- T. cbn [map] in R |- *. rewrite RA in R. cbn [filter_some] in R.
  destruct (r_revisit r) as [m|].
  - destruct R as [_ R]. rewrite L in R. cbn [length].
    replace (Z.of_nat (Datatypes.S (length l)) - 1) with (Z.of_nat (length l)) by lia. rewrite R, S, <- inject_Z_plus.
    unfold revisit_or_zero at 2. rewrite RA. cbn [sum_Z fold_right]. reflexivity.
  - assert (l = []) as ->.
    { destruct l as [|a' l]; [reflexivity|]. cbn [filter_some map] in L. specialize (R a' (or_intror (or_introl eq_refl))).
      cbn [map filter_some] in L. rewrite R in L. cbn in L. pose proof (f_equal (fun n => n) L) as L'.
      assert (Q : forall k : list agg, (length (filter_some (map a_revisit k)) <= length k)%nat).
      { induction k as [|x k IH]; [cbn; lia|]. cbn. destruct (a_revisit x); cbn; lia. }
      specialize (Q l). lia. }
    cbn. unfold revisit_or_zero. rewrite RA. rewrite Z.add_0_r. cbn. rewrite !Z.add_0_r. now rewrite Qplus_0_r.
Qed.

(** ** Passes *)

Lemma visible_bounds start end_ maxacc ev l r : start <= end_ -> In (l, r) (vis_p start end_ maxacc ev) ->
  (l = start \/ In (l, Rise) ev) /\ (r = end_ \/ In (r, SetEv) ev).
Proof.
  intros H Hi.
  assert (TR : forall t, In t (times_of is_rise ev) -> In (t, Rise) ev).
  { intros t Ht. apply times_of_in in Ht as [e [Ht E]]. now destruct e. }
  assert (TS : forall t, In t (times_of is_set ev) -> In (t, SetEv) ev).
  { intros t Ht. apply times_of_in in Ht as [e [Ht E]]. now destruct e. }
  unfold vis_p in Hi. destruct ev as [|x rr] eqn:EV; [destruct Hi|]. rewrite <- EV in *.
  destruct (forallb _ ev) eqn:EC.
  - destruct Hi as [K|[]]. injection K as <- <-. tauto.
  - apply in_app_iff in Hi as [Hi|Hi]; [|apply in_app_iff in Hi as [Hi|Hi]].
    + unfold lead_p in Hi. destruct (times_of is_set ev) as [|s sr] eqn:ES; [destruct Hi|].
      destruct (_ && _) eqn:E; [|destruct Hi]. destruct Hi as [K|[]]. injection K as <- <-.
      split; [now left|right]. apply TS. now left.
    + unfold rise_p in Hi. apply in_flat_map in Hi as [q [Hr Hi]]. unfold one_rise in Hi.
      destruct (matching_sets _ q _) as [|s sr] eqn:ES; [destruct Hi|]. destruct Hi as [K|[]]. injection K as <- <-.
      assert (In s (matching_sets maxacc q (times_of is_set ev))) as Hin by (rewrite ES; now left).
      apply matching_sets_in in Hin as [Hs Hb]. split; right; [now apply TR|now apply TS].
    + unfold trail_p in Hi. destruct (last_opt (times_of is_rise ev)) as [q|] eqn:ER; [|destruct Hi].
      destruct (_ && _) eqn:E; [|destruct Hi]. destruct Hi as [K|[]]. injection K as <- <-.
      apply last_opt_in in ER. split; [right; now apply TR|now left].
Qed.

Lemma above_at_rise : forall ev b t, chronological ev -> alternates b ev -> In (t, Rise) ev -> above b ev t = false.
Proof.
  induction ev as [|[te e] r IH]; intros b t C A H; [destruct H|].
  cbn [above]. apply StronglySorted_inv in C as [C F]. rewrite Forall_forall in F. destruct H as [H|H].
  - injection H as -> ->. rewrite Z.ltb_irrefl. now destruct A.
  - specialize (F _ H). cbn in F. replace (te <? t) with true by (symmetry; apply Z.ltb_lt; lia).
    apply IH; [exact C|destruct e; now destruct A|exact H].
Qed.

Lemma passes_of start end_ maxacc b ev iv : start < end_ -> sky start end_ maxacc b ev ->
  visible_intervals start end_ maxacc ev = Ok iv ->
  (forall l r, In (l, r) iv -> start < l -> (In (l, Rise) ev /\ l < end_) /\ pass_until end_ b ev l r)
  /\ (forall u, In (u, Rise) ev -> u < end_ -> start < u -> exists r, In (u, r) iv).
Proof.
  intros L SK V. destruct (visible_closed start end_ maxacc b ev L SK) as (iv' & V' & N & X). rewrite V in V'. injection V' as <-.
  destruct SK as (C & W & A & S & NE).
  destruct (c53_visible_intervals_in_window start end_ maxacc ev (Z.lt_le_incl _ _ L) W) as (iv' & E & F).
  rewrite V in E. injection E as <-. rewrite Forall_forall in F.
  assert (VP : iv = vis_p start end_ maxacc ev) by (rewrite visible_intervals_pure in V by lia; now injection V).
  assert (EX : ev <> [] -> forall t, start < t <= end_ -> (in_some iv t <-> above b ev t = true)).
  { intro K. destruct (c52_visible_intervals_exact start end_ maxacc ev b (Z.lt_le_incl _ _ L) K C W A S) as (iv' & V' & Y).
    rewrite V in V'. injection V' as <-. exact Y. }
  split.
  - intros l r H Hl. assert (K : ev <> []) by (intros ->; cbn in VP; subst iv; destruct H).
    destruct (F _ H) as (_ & _ & R1 & _). specialize (N _ H). cbn in N, R1.
    pose proof H as HB. rewrite VP in HB. apply visible_bounds in HB as [[->|HB] HC]; [lia| |lia].
    split; [split; [exact HB|lia]|]. split; [lia|]. split; [|exact HC].
    intros t T. apply (EX K); [lia|]. exists (l, r). split; [exact H|cbn; lia].
  - intros u Hu U1 U2. destruct (proj2 (X u ltac:(lia)) (or_intror Hu)) as ([l r] & H & A1 & A2). cbn in A1, A2.
    exists r. destruct (Z.eq_dec l u) as [->|Q]; [exact H|]. exfalso.
    assert (K : ev <> []) by (intros ->; destruct Hu).
    assert (T : above b ev u = true) by (apply (EX K); [lia|]; exists (l, r); split; [exact H|cbn; lia]).
    rewrite (above_at_rise ev b u C A Hu) in T. discriminate.
Qed.

(** ** Latency *)

Lemma latency_chain_lemma : forall {S} srt_o srt_d srt_l srt (name : S -> string) sats stations start end_ maxacc b ev per rows,
  is_sort o_end srt_o -> is_sort d_start srt_d -> is_sort l_observed srt_l -> is_sort d_start srt ->
  start < end_ -> contacts start end_ maxacc ev per ->
  (forall s st, sky start end_ (maxacc s st) (b s st) (ev s st)) ->
  (forall s s', In s sats -> In s' sats -> name s = name s' -> s = s') ->
  (forall st, In st stations -> st_min_access st = 0) ->
  let downs := flat_map (fun s => collect_downlinks srt (name s) (per s) stations) sats in
  rows <> [] -> downs <> [] ->
  exists rows', Permutation rows rows'
    /\ Forall2 (fun o row => forall s, In s sats -> o_sat o = name s -> start < o_end o ->
                  next_pass_row end_ stations (b s) (ev s) o row)
         rows' (compute_latencies srt_o srt_d srt_l rows downs).
Proof.
  intros S srt_o srt_d srt_l srt name sats stations start end_ maxacc b ev per rows SO SD SL SS L CO SK INJ MIN downs RN DN.
  destruct (c66_latency_first_downlink srt_o srt_d srt_l rows downs SO SD SL RN DN) as (rows' & P & F & _).
  exists rows'. split; [exact P|]. revert F. apply Forall2_impl_gen. intros o row (E1 & E2 & E3 & E4 & H) s Hs EO T.
  assert (DI : forall d, In d downs /\ usable o d <-> exists st l r, In st stations /\ In (l, r) (per s st)
             /\ o_end o <= l /\ d = mk_down (st_name st) (name s) l r (l + (r - l) / 2)).
  { intro d. split.
    - intros [Hd [U1 U2]]. apply in_flat_map in Hd as (s' & Hs' & Hd). apply (c65_collect_downlinks srt (name s') (per s') stations SS) in Hd
        as (st & l & r & Hst & Hp & _ & ->). cbn in U1, U2. assert (s' = s) as -> by (apply INJ; congruence).
      exists st, l, r. repeat split; assumption.
    - intros (st & l & r & Hst & Hp & U & ->). split; [|split; [now symmetry|exact U]].
      apply in_flat_map. exists s. split; [exact Hs|]. apply (c65_collect_downlinks srt (name s) (per s) stations SS).
      exists st, l, r. repeat split; try assumption. rewrite (MIN st Hst).
      destruct (visible_closed start end_ _ _ _ L (SK s st)) as (iv & V & N & _). rewrite (CO s st) in V. injection V as <-.
      specialize (N _ Hp). cbn in N. lia. }
  split; [exact E1|]. split; [exact E2|]. split; [exact E3|]. split; [exact E4|].
  destruct H as [(d & Hd & U & MI & E5 & E6 & E7)|(NO & E5 & E6 & E7)].
  - left. destruct (proj1 (DI d) (conj Hd U)) as (st & l & r & Hst & Hp & U2 & ->).
    destruct (passes_of start end_ _ _ _ _ L (SK s st) (CO s st)) as [PA _].
    destruct (PA l r Hp ltac:(lia)) as [[HR HE] PU].
    exists st, l, r. split; [exact Hst|]. split; [split; [exact HR|lia]|]. split.
    + intros st' u' Hst' [HR' HE']. destruct (passes_of start end_ _ _ _ _ L (SK s st') (CO s st')) as [_ PB].
      destruct (PB u' HR' ltac:(lia) ltac:(lia)) as [r' Hp'].
      destruct (proj2 (DI (mk_down (st_name st') (name s) u' r' (u' + (r' - u') / 2)))) as [D1 D2].
      { exists st', u', r'. repeat split; try assumption. lia. }
      exact (MI _ D1 D2).
    + split; [exact PU|]. split; [exact E5|]. split; [exact E6|exact E7].
  - right. split; [|tauto]. intros st u Hst [HR HE]. destruct (passes_of start end_ _ _ _ _ L (SK s st) (CO s st)) as [_ PB].
    destruct (PB u HR ltac:(lia) ltac:(lia)) as [r Hp].
    destruct (proj2 (DI (mk_down (st_name st) (name s) u r (u + (r - u) / 2)))) as [D1 D2].
    { exists st, u, r. repeat split; try assumption. lia. }
    exact (NO _ D1 D2).
Qed.

(** ** Concrete cases *)

Definition ex_ev (s : Z) (st : station) : events :=
  if s =? 1 then [(5, Rise); (50, Culminate); (100, SetEv); (500, Rise); (550, Culminate); (600, SetEv)] else [(90, Rise); (150, SetEv)].
Definition ex_per (s : Z) (st : station) : list (Z * Z) := if s =? 1 then [(5, 100); (500, 600)] else [(90, 150)].
Definition ex_name (s : Z) : string := if s =? 1 then "s" else "t".
Definition ex_obs : obs := mk_obs 1 "s" "i" 10 15 20.

Lemma ex_sky s st : sky 0 1000 60 false (ex_ev s st).
Proof.
  unfold sky, ex_ev. destruct (s =? 1); repeat split; try discriminate; cbn; try lia; try reflexivity;
    repeat constructor; cbn; lia.
Qed.

Lemma ex_contacts : contacts 0 1000 (fun _ _ => 60) ex_ev ex_per.
Proof. intros s st. unfold ex_ev, ex_per. destruct (s =? 1); reflexivity. Qed.

Lemma first_opportunity_lemma : exists (stations : list station) (b : bool) (ev : events) maxacc start end_ iv o row later,
  sky start end_ maxacc b ev /\ visible_intervals start end_ maxacc ev = Ok iv /\ start < o_start o /\ o_start o <= o_end o
  /\ stations <> [] /\ (forall st, In st stations -> st_min_access st = 0)
  /\ compute_latencies (sort_by o_end) (sort_by d_start) (sort_by l_observed) [o]
       (collect_downlinks (sort_by d_start) (o_sat o) (fun _ => iv) stations) = [row]
  /\ (forall t, o_start o <= t <= later -> in_view b ev t) /\ o_end o < later
  /\ exists d, l_downlinked row = Some d /\ later + (later - o_end o) < d.
Proof.
  exists [mk_station "a" 0], false, (ex_ev 1 (mk_station "a" 0)), 60, 0, 1000, [(5, 100); (500, 600)], ex_obs,
    (mk_lat 1 "s" "i" (Some "a"%string) (Some 550) (Some 535) 15), 100.
  split; [apply ex_sky|]. split; [reflexivity|]. split; [cbn; lia|]. split; [cbn; lia|]. split; [discriminate|].
  split; [intros st [<-|[]]; reflexivity|]. split; [reflexivity|]. split; [|split; [cbn; lia|]].
  - intros t T. cbn in T. left. cbn [ex_ev above Z.eqb Pos.eqb].
    replace (5 <? t) with true by (symmetry; apply Z.ltb_lt; lia). destruct (50 <? t); [|reflexivity].
    now replace (100 <? t) with false by (symmetry; apply Z.ltb_ge; lia).
  - exists 550. split; [reflexivity|cbn; lia].
Qed.
