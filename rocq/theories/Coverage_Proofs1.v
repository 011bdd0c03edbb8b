(** Proofs about visible intervals. *)
From Coq Require Import String ZArith QArith List Bool Sorting.Sorted Sorting.Permutation Lia.
From Verif Require Import Base BaseFacts Coverage_Model Coverage_Spec.
Import ListNotations.
Open Scope Z_scope.

Local Arguments matching_sets : simpl never.
Local Arguments Z.mul : simpl never.
Local Arguments Z.add : simpl never.

(** Pure versions of the three parts. *)
Definition lead_p (start : Z) (rises sets : list Z) : list (Z * Z) :=
  match sets with
  | [] => []
  | s :: _ => if (match rises with [] => true | r :: _ => s <? r end) && (start <? s)
              then [(start, s)] else []
  end.
Definition one_rise (maxacc : Z) (sets : list Z) (r : Z) : list (Z * Z) :=
  match matching_sets maxacc r sets with s :: _ => [(r, s)] | [] => [] end.
Definition rise_p (maxacc : Z) (rises sets : list Z) : list (Z * Z) :=
  flat_map (one_rise maxacc sets) rises.
Definition trail_p (end_ : Z) (rises sets : list Z) : list (Z * Z) :=
  match last_opt rises with
  | None => []
  | Some r => if (match last_opt sets with None => true | Some s => s <? r end) && (r <? end_)
              then [(r, end_)] else []
  end.

Lemma leading_set_pure start rises sets :
  leading_set start rises sets = Ok (lead_p start rises sets).
Proof.
  unfold leading_set, lead_p. destruct sets as [|s sr]; [reflexivity|].
  destruct ((match rises with [] => true | r :: _ => s <? r end)); simpl; [|reflexivity].
  destruct (Z.ltb_spec start s); simpl; [|reflexivity].
  unfold mk_interval. destruct (Z.leb_spec start s); [reflexivity|lia].
Qed.

Lemma trailing_rise_pure end_ rises sets :
  trailing_rise end_ rises sets = Ok (trail_p end_ rises sets).
Proof.
  unfold trailing_rise, trail_p. destruct (last_opt rises) as [r|]; [|reflexivity].
  destruct (match last_opt sets with None => true | Some s => s <? r end); simpl; [|reflexivity].
  destruct (Z.ltb_spec r end_); simpl; [|reflexivity].
  unfold mk_interval. destruct (Z.leb_spec r end_); [reflexivity|lia].
Qed.

Lemma matching_sets_in maxacc r sets s :
  In s (matching_sets maxacc r sets) <-> In s sets /\ r < s < r + 2 * maxacc.
Proof.
  unfold matching_sets. rewrite filter_In, andb_true_iff, !Z.ltb_lt. tauto.
Qed.

Lemma rise_periods_pure maxacc rises sets :
  rise_periods maxacc rises sets = Ok (rise_p maxacc rises sets).
Proof.
  unfold rise_periods, rise_p. induction rises as [|r rs IH]; [reflexivity|].
  simpl. unfold one_rise at 1.
  destruct (matching_sets maxacc r sets) as [|s ms] eqn:E; [exact IH|].
  simpl. rewrite E.
  assert (In s (matching_sets maxacc r sets)) as Hin by (rewrite E; now left).
  apply matching_sets_in in Hin as [_ Hs].
  unfold mk_interval at 1. destruct (Z.leb_spec r s); [|lia]. simpl.
  rewrite IH. reflexivity.
Qed.

(** The result of the code, without exceptions. *)
Definition vis_p (start end_ maxacc : Z) (ev : events) : list (Z * Z) :=
  match ev with
  | [] => []
  | _ => if forallb (fun x => is_culm (snd x)) ev then [(start, end_)]
         else lead_p start (times_of is_rise ev) (times_of is_set ev)
              ++ rise_p maxacc (times_of is_rise ev) (times_of is_set ev)
              ++ trail_p end_ (times_of is_rise ev) (times_of is_set ev)
  end.

Lemma visible_intervals_pure start end_ maxacc ev :
  start <= end_ ->
  visible_intervals start end_ maxacc ev = Ok (vis_p start end_ maxacc ev).
Proof.
  intro H. unfold visible_intervals, vis_p. destruct ev as [|x r]; [reflexivity|].
  destruct (forallb _ (x :: r)).
  - unfold mk_interval. destruct (Z.leb_spec start end_); [reflexivity|lia].
  - rewrite leading_set_pure, rise_periods_pure, trailing_rise_pure. reflexivity.
Qed.

Lemma times_of_in p ev t :
  In t (times_of p ev) <-> exists e, In (t, e) ev /\ p e = true.
Proof.
  unfold times_of. rewrite in_map_iff. split.
  - intros [[t' e] [<- H]]. apply filter_In in H as [H E]. simpl in *. eauto.
  - intros [e [H E]]. exists (t, e). split; [reflexivity|]. apply filter_In. auto.
Qed.

Lemma last_opt_in l x : last_opt l = Some x -> In x l.
Proof.
  unfold last_opt. destruct (rev l) as [|y r] eqn:E; [discriminate|].
  intros [= ->]. apply in_rev. rewrite E. now left.
Qed.

(** ** Arbitrary event sequences *)
Lemma visible_general start end_ maxacc ev :
  start <= end_ -> in_window start end_ ev ->
  exists iv, visible_intervals start end_ maxacc ev = Ok iv
    /\ Forall (fun i => start <= fst i /\ fst i <= snd i /\ snd i <= end_
                        /\ (start < end_ -> fst i < snd i)) iv.
Proof.
  intros H W. exists (vis_p start end_ maxacc ev).
  split; [now apply visible_intervals_pure|].
  apply Forall_forall. intros i Hi.
  unfold in_window in W. rewrite Forall_forall in W.
  assert (TW : forall p t, In t (times_of p ev) -> start <= t <= end_).
  { intros p t Ht. apply times_of_in in Ht as [e [Ht _]]. apply (W (t, e) Ht). }
  unfold vis_p in Hi. destruct ev as [|x r]; [destruct Hi|]. set (ev := x :: r) in *.
  destruct (forallb _ ev) eqn:EC.
  - destruct Hi as [<-|[]]. simpl. lia.
  - apply in_app_iff in Hi as [Hi|Hi]; [|apply in_app_iff in Hi as [Hi|Hi]].
    + unfold lead_p in Hi. destruct (times_of is_set ev) as [|s sr] eqn:ES; [destruct Hi|].
      destruct (_ && _) eqn:E; [|destruct Hi]. destruct Hi as [<-|[]].
      apply andb_true_iff in E as [_ E]. apply Z.ltb_lt in E.
      assert (start <= s <= end_) by (apply (TW is_set); rewrite ES; now left).
      simpl. lia.
    + unfold rise_p in Hi. apply in_flat_map in Hi as [rr [Hr Hi]].
      unfold one_rise in Hi.
      destruct (matching_sets _ rr _) as [|s sr] eqn:ES; [destruct Hi|].
      destruct Hi as [<-|[]].
      assert (In s (matching_sets maxacc rr (times_of is_set ev))) as Hin
        by (rewrite ES; now left).
      apply matching_sets_in in Hin as [Hs Hb].
      pose proof (TW _ _ Hr). pose proof (TW _ _ Hs). simpl. lia.
    + unfold trail_p in Hi. destruct (last_opt (times_of is_rise ev)) as [rr|] eqn:ER; [|destruct Hi].
      destruct (_ && _) eqn:E; [|destruct Hi]. destruct Hi as [<-|[]].
      apply andb_true_iff in E as [_ E]. apply Z.ltb_lt in E.
      apply last_opt_in in ER. pose proof (TW _ _ ER). simpl. lia.
Qed.

(** ** Alternating sequences: the code computes [gen] *)
Fixpoint gen (end_ : Z) (cur : option Z) (ev : events) : list (Z * Z) :=
  match ev with
  | [] => match cur with Some l => if l <? end_ then [(l, end_)] else [] | None => [] end
  | (t, Rise) :: r => gen end_ (Some t) r
  | (t, Culminate) :: r => gen end_ cur r
  | (t, SetEv) :: r =>
      match cur with Some l => [(l, t)] | None => [] end ++ gen end_ None r
  end.

Lemma last_opt_app l x : last_opt (l ++ [x]) = Some x.
Proof. unfold last_opt. now rewrite rev_app_distr. Qed.
Lemma last_opt_cons x l : last_opt (x :: l) = match last_opt l with None => Some x | Some y => Some y end.
Proof.
  unfold last_opt. simpl. destruct (rev l) as [|y r]; reflexivity.
Qed.

Lemma last_opt_app_gen l m :
  last_opt (l ++ m) = match last_opt m with None => last_opt l | Some y => Some y end.
Proof.
  unfold last_opt. rewrite rev_app_distr. destruct (rev m); reflexivity.
Qed.

Lemma matching_skip maxacc r P S :
  Forall (fun p => p <= r) P -> matching_sets maxacc r (P ++ S) = matching_sets maxacc r S.
Proof.
  intro H. unfold matching_sets. rewrite filter_app.
  replace (filter _ P) with (@nil Z); [reflexivity|].
  symmetry. induction H as [|p P Hp H IH]; simpl; [reflexivity|].
  destruct (Z.ltb_spec r p); [lia|]. exact IH.
Qed.

Lemma sorted_cons_inv (x : Z * event) r :
  chronological (x :: r) -> chronological r /\ Forall (fun e => fst x < fst e) r.
Proof. intro H; inversion H; subst; split; assumption. Qed.

Lemma alternates_true_no_rise r :
  alternates false r -> times_of is_rise r = [] -> r = [].
Proof.
  destruct r as [|[t e] r]; [reflexivity|]. destruct e; simpl.
  - discriminate.
  - intros [H _]; discriminate.
  - intros [H _]; discriminate.
Qed.

Lemma times_of_cons p t e r :
  times_of p ((t, e) :: r) = if p e then t :: times_of p r else times_of p r.
Proof. unfold times_of; simpl. destruct (p e); reflexivity. Qed.

Lemma code_is_gen maxacc end_ : forall ev P,
  (chronological ev -> Forall (fun e => fst e <= end_) ev ->
   alternates false ev -> short_passes (2 * maxacc) None ev ->
   Forall (fun p => Forall (fun e => p < fst e) ev) P ->
   rise_p maxacc (times_of is_rise ev) (P ++ times_of is_set ev)
   ++ trail_p end_ (times_of is_rise ev) (P ++ times_of is_set ev) = gen end_ None ev)
  /\
  (forall l, chronological ev -> Forall (fun e => fst e <= end_) ev ->
   alternates true ev -> short_passes (2 * maxacc) (Some l) ev ->
   Forall (fun p => p < l) P -> Forall (fun e => l < fst e) ev ->
   rise_p maxacc (l :: times_of is_rise ev) (P ++ times_of is_set ev)
   ++ trail_p end_ (l :: times_of is_rise ev) (P ++ times_of is_set ev) = gen end_ (Some l) ev).
Proof.
  induction ev as [|[t e] ev IH]; intro P; split.
  - intros. reflexivity.
  - intros l _ _ _ _ HP _. unfold times_of; simpl. rewrite !app_nil_r.
    unfold one_rise.
    assert (E0 : matching_sets maxacc l P = []).
    { rewrite <- (app_nil_r P). rewrite matching_skip; [reflexivity|].
      eapply Forall_impl; [|exact HP]. simpl; intros; lia. }
    rewrite E0. simpl. unfold trail_p. simpl.
    assert (E : (match last_opt P with None => true | Some s => s <? l end) = true).
    { destruct (last_opt P) as [s|] eqn:E; [|reflexivity].
      apply last_opt_in in E. rewrite Forall_forall in HP. specialize (HP _ E).
      now apply Z.ltb_lt. }
    rewrite E. reflexivity.
  - intros HC HE HA HS HP. apply sorted_cons_inv in HC as [HC Ht]. simpl in Ht.
    inversion HE; subst.
    destruct e; simpl in HA; destruct HA as [HA0 HA]; try discriminate.
    rewrite !times_of_cons. simpl is_rise. simpl is_set. cbn iota.
    simpl gen. apply (IH P); auto.
    eapply Forall_impl; [|exact HP]. simpl; intros p Hp. now inversion Hp.
  - intros l HC HE HA HS HP Hl. apply sorted_cons_inv in HC as [HC Ht]. simpl in Ht.
    inversion HE; subst. inversion Hl; subst. simpl in *.
    destruct e; simpl in HA; destruct HA as [HA0 HA]; try discriminate.
    + rewrite !times_of_cons. simpl is_rise. simpl is_set. cbn iota.
      apply (IH P); auto.
    + rewrite !times_of_cons. simpl is_rise. simpl is_set. cbn iota.
      destruct HS as [HS0 HS].
      assert (HP' : Forall (fun p => p <= l) P)
        by (eapply Forall_impl; [|exact HP]; simpl; intros; lia).
      assert (IHN : rise_p maxacc (times_of is_rise ev) ((P ++ [t]) ++ times_of is_set ev)
        ++ trail_p end_ (times_of is_rise ev) ((P ++ [t]) ++ times_of is_set ev)
        = gen end_ None ev).
      { apply (IH (P ++ [t])); auto. apply Forall_app; split.
        - eapply Forall_impl; [|exact HP]. simpl; intros p Hp.
          eapply Forall_impl; [|exact Ht]. simpl; intros; lia.
        - constructor; [assumption|constructor]. }
      rewrite <- app_assoc in IHN. simpl in IHN.
      unfold rise_p at 1. simpl flat_map. unfold one_rise at 1.
      rewrite (matching_skip maxacc l P (t :: times_of is_set ev) HP').
      unfold matching_sets at 1. simpl filter.
      destruct (Z.ltb_spec l t); [|lia].
      destruct (Z.ltb_spec t (l + 2 * maxacc)); [|lia]. cbn [andb].
      cbn iota. simpl gen. rewrite <- IHN. simpl app. f_equal.
      f_equal.
      (* trailing part *)
      unfold trail_p. rewrite last_opt_cons.
      destruct (last_opt (times_of is_rise ev)) as [r|] eqn:ER; [reflexivity|].
      assert (times_of is_rise ev = []) as E0.
      { destruct (times_of is_rise ev) as [|z zs]; [reflexivity|].
        exfalso. revert ER. rewrite last_opt_cons. destruct (last_opt zs); discriminate. }
      rewrite (alternates_true_no_rise ev HA E0). simpl.
      rewrite last_opt_app. destruct (Z.ltb_spec t l); [lia|]. reflexivity.
Qed.

Lemma alternates_b_start ev b :
  forallb (fun x => is_culm (snd x)) ev = false ->
  alternates b ev ->
  exists cs t e r, ev = cs ++ (t, e) :: r /\ forallb (fun x => is_culm (snd x)) cs = true
    /\ is_culm e = false /\ (b = false -> cs = []).
Proof.
  revert b. induction ev as [|[t e] ev IH]; intros b H A; [discriminate|].
  simpl in H. destruct (is_culm e) eqn:E; simpl in H.
  - destruct e; try discriminate. simpl in A. destruct A as [-> A].
    destruct (IH true H A) as [cs [t' [e' [r [-> [H1 [H2 H3]]]]]]].
    exists ((t, Culminate) :: cs), t', e', r. repeat split; auto. discriminate.
  - exists [], t, e, ev. repeat split; auto.
Qed.

Lemma times_of_app p a b : times_of p (a ++ b) = times_of p a ++ times_of p b.
Proof. unfold times_of. now rewrite filter_app, map_app. Qed.

Lemma times_of_culm cs p :
  forallb (fun x => is_culm (snd x)) cs = true -> p Culminate = false -> times_of p cs = [].
Proof.
  intros H Hp. unfold times_of. induction cs as [|[t e] cs IH]; [reflexivity|].
  simpl in *. apply andb_true_iff in H as [H1 H2]. destruct e; try discriminate.
  rewrite Hp. auto.
Qed.

Lemma gen_culm cs end_ cur ev :
  forallb (fun x => is_culm (snd x)) cs = true -> gen end_ cur (cs ++ ev) = gen end_ cur ev.
Proof.
  induction cs as [|[t e] cs IH]; intro H; [reflexivity|].
  simpl in *. apply andb_true_iff in H as [H1 H2]. destruct e; try discriminate. auto.
Qed.


Lemma alternates_app_culm b cs ev :
  forallb (fun x => is_culm (snd x)) cs = true -> cs <> [] \/ b = true ->
  alternates b (cs ++ ev) -> alternates true ev.
Proof.
  revert b. induction cs as [|[t e] cs IH]; intros b H Hb A; simpl in *.
  - destruct Hb as [Hb|Hb]; [now destruct Hb|]. now subst.
  - apply andb_true_iff in H as [H1 H2]. destruct e; try discriminate.
    destruct A as [_ A]. apply (IH true); auto.
Qed.

Lemma short_app_culm d s cs ev :
  forallb (fun x => is_culm (snd x)) cs = true ->
  short_passes d s (cs ++ ev) -> short_passes d s ev.
Proof.
  induction cs as [|[t e] cs IH]; intros H A; simpl in *; [assumption|].
  apply andb_true_iff in H as [H1 H2]. destruct e; try discriminate. auto.
Qed.

Lemma chronological_app_r a b : chronological (a ++ b) -> chronological b.
Proof. intro H. apply StronglySorted_app_inv in H. tauto. Qed.

Lemma vis_p_gen start end_ maxacc ev b :
  start <= end_ -> ev <> [] ->
  chronological ev -> in_window start end_ ev -> alternates b ev ->
  short_passes (2 * maxacc) None ev ->
  filter nonempty_iv (vis_p start end_ maxacc ev)
  = filter nonempty_iv (gen end_ (if b then Some start else None) ev).
Proof.
  intros HSE HNE HC HW HA HS.
  unfold vis_p. destruct ev as [|x0 r0] eqn:Eev; [congruence|]. rewrite <- Eev in *.
  destruct (forallb _ ev) eqn:EC.
  - (* only culminations *)
    assert (b = true) as ->.
    { subst ev. simpl in EC. apply andb_true_iff in EC as [E1 _].
      destruct x0 as [t e]; destruct e; try discriminate. simpl in HA. tauto. }
    rewrite <- (app_nil_r ev). rewrite gen_culm by assumption. simpl.
    unfold nonempty_iv at 1. simpl.
    destruct (Z.ltb_spec start end_); [|reflexivity]. simpl.
    unfold nonempty_iv. simpl. destruct (Z.ltb_spec start end_); [reflexivity|lia].
  - destruct (alternates_b_start ev b EC HA) as [cs [t [e [r [-> [Hcs [He Hb]]]]]]].
    rewrite gen_culm by assumption.
    rewrite !times_of_app, !(times_of_culm cs) by (assumption || reflexivity).
    simpl app.
    assert (HE : Forall (fun e => fst e <= end_) ((t, e) :: r)).
    { apply Forall_app in HW as [_ HW]. eapply Forall_impl; [|exact HW]. simpl; intros; lia. }
    pose proof (chronological_app_r _ _ HC) as HC'.
    pose proof (short_app_culm _ _ _ _ Hcs HS) as HS'.
    destruct b.
    + assert (HA' : alternates true ((t, e) :: r)) by (apply (alternates_app_culm true cs); auto).
      destruct e; simpl in HA'; destruct HA' as [HA0 HA']; try discriminate.
      rewrite !times_of_cons. simpl is_rise. simpl is_set. cbn iota.
      simpl in HS'. destruct HS' as [_ HS'].
      apply sorted_cons_inv in HC' as [HC' Ht]. simpl in Ht.
      inversion HE; subst.
      pose proof (proj1 (code_is_gen maxacc end_ r [t]) HC' H2 HA' HS') as G.
      simpl app in G. simpl gen. rewrite <- G by (constructor; [assumption|constructor]).
      rewrite !filter_app. simpl.
      unfold lead_p.
      assert (EL : (match times_of is_rise r with [] => true | r0 :: _ => t <? r0 end) = true).
      { destruct (times_of is_rise r) as [|z zs] eqn:EZ; [reflexivity|].
        assert (In z (times_of is_rise r)) as Hz by (rewrite EZ; now left).
        apply times_of_in in Hz as [e [Hz _]]. rewrite Forall_forall in Ht.
        specialize (Ht _ Hz). simpl in Ht. now apply Z.ltb_lt. }
      rewrite EL. cbn [andb].
      apply Forall_app in HW as [_ HW]. inversion HW; subst. simpl in *.
      destruct (Z.ltb_spec start t) as [HL|HL].
      * simpl. change (nonempty_iv (start, t)) with (start <? t).
        apply Z.ltb_lt in HL. rewrite HL. rewrite ?filter_app. reflexivity.
      * simpl. change (nonempty_iv (start, t)) with (start <? t).
        apply Z.ltb_ge in HL. rewrite HL. rewrite ?filter_app. reflexivity.
    + rewrite (Hb eq_refl) in *. simpl app in *.
      pose proof (proj1 (code_is_gen maxacc end_ ((t, e) :: r) []) HC' HE HA HS'
                    (Forall_nil _)) as G.
      simpl app in G.
      destruct e; simpl in HA; destruct HA as [HA0 HA']; try discriminate.
      assert (EL : lead_p start (times_of is_rise ((t, Rise) :: r)) (times_of is_set ((t, Rise) :: r)) = []).
      { rewrite !times_of_cons. simpl is_rise; simpl is_set; cbn iota.
        unfold lead_p. destruct (times_of is_set r) as [|s ss] eqn:EZ; [reflexivity|].
        assert (In s (times_of is_set r)) as Hz by (rewrite EZ; now left).
        apply times_of_in in Hz as [e [Hz _]].
        apply sorted_cons_inv in HC' as [_ Ht]. rewrite Forall_forall in Ht.
        specialize (Ht _ Hz). simpl in Ht.
        destruct (Z.ltb_spec s t); [lia|]. reflexivity. }
      rewrite EL, app_nil_l, G. reflexivity.
Qed.

Lemma in_some_filter iv t : in_some (filter nonempty_iv iv) t <-> in_some iv t.
Proof.
  unfold in_some. split; intros [i [Hi Ht]]; exists i; split; auto.
  - apply filter_In in Hi. tauto.
  - apply filter_In. split; [assumption|]. unfold nonempty_iv. apply Z.ltb_lt. lia.
Qed.

(** [gen] covers exactly the instants at which the satellite is above. *)
Lemma gen_above end_ : forall ev cur b t,
  (b = true <-> cur <> None) ->
  chronological ev -> Forall (fun e => fst e <= end_) ev -> alternates b ev ->
  (forall l, cur = Some l -> Forall (fun e => l <= fst e) ev /\ l < t) ->
  t <= end_ ->
  (in_some (gen end_ cur ev) t <-> above b ev t = true).
Proof.
  induction ev as [|[te e] ev IH]; intros cur b t Hb HC HE HA Hcur Ht.
  - simpl. destruct cur as [l|].
    + assert (b = true) as -> by (apply Hb; discriminate).
      split; [reflexivity|]. intros _. destruct (Hcur l eq_refl) as [_ Hl].
      destruct (Z.ltb_spec l end_); [|lia].
      exists (l, end_). simpl. split; [now left|lia].
    + assert (b = false) as -> by (destruct b; [exfalso; now apply (proj1 Hb)|reflexivity]).
      split; [intros [i [[] _]]|discriminate].
  - apply sorted_cons_inv in HC as [HC Hte]. inversion HE; subst. simpl in *.
    destruct e; simpl in HA; destruct HA as [HA0 HA]; subst b.
    + assert (cur = None) as -> by (destruct cur; [exfalso; assert (false = true) by (apply Hb; discriminate); discriminate|reflexivity]).
      destruct (Z.ltb_spec te t).
      * apply (IH (Some te) true t); auto.
        { split; intros; [discriminate|reflexivity]. }
        intros l [= <-]. split; [|assumption].
        eapply Forall_impl; [|exact Hte]. simpl; intros; lia.
      * split; [|discriminate]. intros [i [Hi Hit]]. exfalso.
        (* every interval starts at or after te >= t *)
        assert (G : forall ev cur, (forall l, cur = Some l -> te <= l) ->
                  Forall (fun e => te <= fst e) ev ->
                  Forall (fun i => te <= fst i) (gen end_ cur ev)).
        { clear. induction ev as [|[u e] ev IH]; intros cur Hc HF.
          - simpl. destruct cur as [l|]; [|constructor].
            destruct (l <? end_); [|constructor].
            constructor; [simpl; auto|constructor].
          - inversion HF; subst. simpl in *. destruct e.
            + apply IH; auto. intros l [= <-]; assumption.
            + apply IH; auto.
            + apply Forall_app; split.
              * destruct cur as [l|]; [|constructor]. constructor; [simpl; auto|constructor].
              * apply IH; auto. discriminate. }
        specialize (G ev (Some te)).
        assert (Forall (fun i => te <= fst i) (gen end_ (Some te) ev)) as G'.
        { apply G; [intros l [= <-]; lia|].
          eapply Forall_impl; [|exact Hte]; simpl; intros; lia. }
        rewrite Forall_forall in G'. specialize (G' _ Hi). lia.
    + assert (Hr : cur <> None) by now apply Hb.
      destruct cur as [l|]; [|congruence].
      assert (above true ev t = true <-> (if te <? t then above true ev t else true) = true) as E.
      { destruct (Z.ltb_spec te t); [tauto|]. split; [reflexivity|]. intros _.
        destruct ev as [|[u e'] ev']; [reflexivity|]. simpl.
        inversion Hte; subst. simpl in *. destruct (Z.ltb_spec u t); [lia|reflexivity]. }
      rewrite <- E. apply IH; auto.
      intros l' [= <-]. destruct (Hcur l eq_refl) as [Hl1 Hl2]. inversion Hl1; subst. auto.
    + assert (Hr : cur <> None) by now apply Hb.
      destruct cur as [l|]; [|congruence].
      destruct (Hcur l eq_refl) as [Hl1 Hl2]. inversion Hl1; subst. simpl in *.
      destruct (Z.ltb_spec te t).
      * rewrite <- (IH None false t); auto.
        { split; intros [i [Hi Hit]]; exists i; split; auto.
          - destruct Hi as [<-|Hi]; [simpl in Hit; lia|assumption].
          - now right. }
        { split; [discriminate|congruence]. }
        { discriminate. }
      * split; [reflexivity|]. intros _. exists (l, te). simpl. split; [now left|lia].
Qed.

Lemma visible_exact_lemma start end_ maxacc ev b :
  start <= end_ -> ev <> [] ->
  chronological ev -> in_window start end_ ev -> alternates b ev ->
  short_passes (2 * maxacc) None ev ->
  exists iv, visible_intervals start end_ maxacc ev = Ok iv
    /\ forall t, start < t <= end_ -> (in_some iv t <-> above b ev t = true).
Proof.
  intros HSE HNE HC HW HA HS. exists (vis_p start end_ maxacc ev).
  split; [now apply visible_intervals_pure|]. intros t Ht.
  rewrite <- in_some_filter, (vis_p_gen start end_ maxacc ev b), in_some_filter by assumption.
  apply gen_above; auto; try lia.
  - destruct b; split; intros; congruence || reflexivity.
  - eapply Forall_impl; [|exact HW]. simpl; intros; lia.
  - intros l El. destruct b; [|discriminate]. injection El as <-.
    split; [|lia]. eapply Forall_impl; [|exact HW]. simpl; intros; lia.
Qed.

(** ** Order and disjointness *)
Lemma gen_starts end_ : forall ev cur lo,
  (forall l, cur = Some l -> lo <= l) -> Forall (fun e => lo <= fst e) ev ->
  Forall (fun i => lo <= fst i) (gen end_ cur ev).
Proof.
  induction ev as [|[u e] ev IH]; intros cur lo Hc HF.
  - simpl. destruct cur as [l|]; [|constructor].
    destruct (l <? end_); [|constructor].
    constructor; [simpl; auto|constructor].
  - inversion HF; subst. simpl in *. destruct e.
    + apply IH; auto. intros l [= <-]; assumption.
    + apply IH; auto.
    + apply Forall_app; split.
      * destruct cur as [l|]; [|constructor]. constructor; [simpl; auto|constructor].
      * apply IH; auto. discriminate.
Qed.

Lemma gen_disjoint end_ : forall ev cur,
  chronological ev -> (forall l, cur = Some l -> Forall (fun e => l <= fst e) ev) ->
  disjoint_ordered (gen end_ cur ev).
Proof.
  unfold disjoint_ordered. induction ev as [|[te e] ev IH]; intros cur HC Hcur.
  - simpl. destruct cur as [l|]; [|constructor]. destruct (l <? end_); repeat constructor.
  - apply sorted_cons_inv in HC as [HC Hte]. simpl in Hte.
    assert (Hte' : Forall (fun e => te <= fst e) ev)
      by (eapply Forall_impl; [|exact Hte]; simpl; intros; lia).
    destruct e; simpl.
    + apply IH; auto. intros l [= <-]; assumption.
    + apply IH; auto. intros l El. specialize (Hcur l El). now inversion Hcur.
    + assert (G : StronglySorted (fun a b => snd a <= fst b) (gen end_ None ev))
        by (apply IH; [assumption|discriminate]).
      destruct cur as [l|]; [|exact G]. simpl. constructor; [exact G|].
      simpl. apply gen_starts; [discriminate|assumption].
Qed.

Lemma visible_disjoint_lemma start end_ maxacc ev b :
  start <= end_ -> ev <> [] ->
  chronological ev -> in_window start end_ ev -> alternates b ev ->
  short_passes (2 * maxacc) None ev ->
  exists iv, visible_intervals start end_ maxacc ev = Ok iv
    /\ disjoint_ordered (filter nonempty_iv iv).
Proof.
  intros HSE HNE HC HW HA HS. exists (vis_p start end_ maxacc ev).
  split; [now apply visible_intervals_pure|].
  rewrite (vis_p_gen start end_ maxacc ev b) by assumption.
  apply StronglySorted_filter. apply gen_disjoint; [assumption|].
  intros l El. destruct b; [|discriminate]. injection El as <-.
  eapply Forall_impl; [|exact HW]. simpl; intros; lia.
Qed.

(** Each period of a rise is closed by the first following set. *)
Lemma visible_first_set_lemma start end_ maxacc ev iv r s :
  chronological ev ->
  visible_intervals start end_ maxacc ev = Ok iv ->
  In (r, s) iv -> In (r, Rise) ev -> In (s, SetEv) ev ->
  start < r -> s < end_ ->
  forall s', In (s', SetEv) ev -> r < s' -> s <= s'.
Proof.
  intros HC HV Hin Hr Hs Hst Hse s' Hs' Hrs'.
  assert (SS : StronglySorted Z.lt (times_of is_set ev)).
  { unfold times_of. clear -HC. induction HC as [|[t e] ev H IH HF]; simpl; [constructor|].
    destruct (is_set e); simpl; [|assumption]. constructor; [assumption|].
    apply Forall_forall. intros z Hz. apply in_map_iff in Hz as [[z' e'] [<- Hz]].
    apply filter_In in Hz as [Hz _]. rewrite Forall_forall in HF. apply (HF _ Hz). }
  unfold visible_intervals in HV. destruct ev as [|x0 r0] eqn:Eev; [destruct Hr|].
  rewrite <- Eev in *.
  destruct (forallb _ ev) eqn:EC.
  { exfalso. rewrite forallb_forall in EC. specialize (EC _ Hr). discriminate. }
  rewrite leading_set_pure, rise_periods_pure, trailing_rise_pure in HV.
  simpl in HV. injection HV as <-.
  apply in_app_iff in Hin as [Hin|Hin]; [|apply in_app_iff in Hin as [Hin|Hin]].
  - exfalso. unfold lead_p in Hin. destruct (times_of is_set ev); [destruct Hin|].
    destruct (_ && _); [|destruct Hin]. destruct Hin as [[= E _]|[]]. lia.
  - unfold rise_p in Hin. apply in_flat_map in Hin as [rr [Hrr Hin]].
    unfold one_rise in Hin.
    destruct (matching_sets maxacc rr (times_of is_set ev)) as [|s0 sr] eqn:E; [destruct Hin|].
    destruct Hin as [[= -> ->]|[]].
    assert (SM : StronglySorted Z.lt (matching_sets maxacc r (times_of is_set ev)))
      by (apply StronglySorted_filter; assumption).
    rewrite E in SM. inversion SM as [|? ? _ H2]; clear Eev.
    destruct (Z.le_gt_cases s s') as [|Hlt]; [assumption|exfalso].
    assert (In s' (matching_sets maxacc r (times_of is_set ev))) as Hin'.
    { apply matching_sets_in. split; [apply times_of_in; exists SetEv; auto|].
      assert (In s (matching_sets maxacc r (times_of is_set ev))) as Hs0
        by (rewrite E; now left).
      apply matching_sets_in in Hs0. lia. }
    rewrite E in Hin'. destruct Hin' as [->|Hin']; [lia|].
    rewrite Forall_forall in H2. specialize (H2 _ Hin'). lia.
  - exfalso. unfold trail_p in Hin. destruct (last_opt _); [|destruct Hin].
    destruct (_ && _); [|destruct Hin]. destruct Hin as [[= _ E]|[]]. lia.
Qed.
