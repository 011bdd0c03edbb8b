(** Proofs about the schemas: saving and loading. *)
From Coq Require Import String List Bool Arith Lia.
From Verif Require Import Schema_Model Schema_Spec Schema_Proofs.
Import ListNotations.
Open Scope string_scope.

Section Pydantic.
Variable atom : Type.
Notation pv := (pv atom).
Variable scalar : cls -> string -> pv -> option pv.
Variable saved : cls -> string -> pv -> pv.
Variable default : cls -> string -> pv.
Variable walker_check : list (string * pv) -> bool.
Variable choose : list pv -> option pv.
Hypothesis SR : scalars_restored atom scalar saved default.
Hypothesis CH : chooses atom choose.
Notation validate := (validate atom scalar default walker_check choose).
Notation model := (model atom scalar default walker_check).
Notation dump := (dump atom saved).
Notation save_as := (save_as atom saved).
Notation check := (check atom walker_check).

Definition scal (c : cls) (f : string) (v : pv) : Prop := scalar c f (saved c f v) = Some v /\ plain v.
Definition cfields (c : cls) (subs : list (string * (pv * (ftype -> Prop)))) : Prop :=
  map fst subs = map d_name (fields c) /\ check c (map (fun s => (fst s, fst (snd s))) subs) = true
  /\ forall d, In d (fields c) -> exists v k, find (d_name d) subs = Some (v, k) /\ match d_type d with FScalar f => scal c f v | t => k t end.
Fixpoint conform (st : bool) (v : pv) (t : ftype) : Prop :=
  match t, v with
  | FLit s, PStr a => a = s
  | FModel c, PInst d l => (if st then d = c else isinstance d c = true) /\ cfields d (map (fun e => (fst e, (snd e, conform st (snd e)))) l)
  | FUnion cs, PInst d l => (if st then In d cs else existsb (isinstance d) cs = true) /\ cfields d (map (fun e => (fst e, (snd e, conform st (snd e)))) l)
  | FList t' n, PList l => n <= length l /\ fold_right and True (map (fun x => conform st x t') l)
  | _, _ => False
  end.
Lemma fold_and {A} (P : A -> Prop) l : fold_right and True (map P l) <-> Forall P l.
Proof. induction l; cbn; [intuition|]. rewrite IHl. split; [intros []; now constructor|intro H; inversion H; auto]. Qed.
Definition pairs {A B C} (h : B -> C) (l : list (A * B)) : list (A * (B * C)) := map (fun e => (fst e, (snd e, h (snd e)))) l.
Lemma pairs_fst {B C} (h : B -> C) (l : list (string * B)) : map fst (pairs h l) = map fst l.
Proof. unfold pairs. rewrite map_map. reflexivity. Qed.
Lemma pairs_snd {B C} (h : B -> C) (l : list (string * B)) : map (fun s => (fst s, fst (snd s))) (pairs h l) = l.
Proof. unfold pairs. rewrite map_map. cbn. induction l as [|[]]; cbn; congruence. Qed.
Lemma find_pairs {B C} (h : B -> C) (l : list (string * B)) n : find n (pairs h l) = option_map (fun v => (v, h v)) (find n l).
Proof. unfold pairs. rewrite (find_map (fun v => (v, h v))). reflexivity. Qed.
Lemma cfields_iff st c l : cfields c (pairs (conform st) l) <->
  map fst l = map d_name (fields c) /\ check c l = true
  /\ forall d, In d (fields c) -> exists v, find (d_name d) l = Some v /\ match d_type d with FScalar f => scal c f v | t => conform st v t end.
Proof.
  unfold cfields. rewrite pairs_fst, pairs_snd. split; intros (A & B & C); (split; [exact A|]); (split; [exact B|]); intros d I; destruct (C d I) as (v & K).
  - destruct K as (k & K & M). rewrite find_pairs in K. destruct (find (d_name d) l) as [w|]; [|discriminate]. injection K as -> <-. now exists v.
  - destruct K as (K & M). exists v, (conform st v). rewrite find_pairs, K. now split.
Qed.
Lemma conform_model st d l c : conform st (PInst d l) (FModel c) <-> (if st then d = c else isinstance d c = true) /\ cfields d (pairs (conform st) l).
Proof. reflexivity. Qed.
Lemma conform_union st d l cs : conform st (PInst d l) (FUnion cs) <-> (if st then In d cs else existsb (isinstance d) cs = true) /\ cfields d (pairs (conform st) l).
Proof. reflexivity. Qed.
Lemma conform_list st l t n : conform st (PList l) (FList t n) <-> n <= length l /\ Forall (fun x => conform st x t) l.
Proof. cbn. now rewrite fold_and. Qed.

Lemma scal_default c f : scal c f (default c f).
Proof. destruct SR as (A & B & C). split; [apply C|]. exact (proj2 (A _ _ _ _ (C c f))). Qed.
Lemma scal_accepted c f x y : scalar c f x = Some y -> scal c f y.
Proof. destruct SR as (A & B & C). intro H. exact (A _ _ _ _ H). Qed.
Lemma default_instrument st : conform st (PInst Instrument (map (fun f => (d_name f, default Instrument (d_name f))) instrument_fields)) (FModel Instrument).
Proof.
  apply conform_model. split; [destruct st; reflexivity|]. apply cfields_iff. split; [rewrite map_map; reflexivity|]. split; [reflexivity|].
  intros d I. exists (default Instrument (d_name d)). split.
  - apply find_unique; [rewrite map_map; exact (names_nodup Instrument)|]. apply in_map_iff. now exists d.
  - rewrite (instrument_types d I). apply scal_default.
Qed.
Lemma default_conform st c d : In d (fields c) -> d_dflt d = Default -> match d_type d with FScalar f => scal c f (default_of atom default c d) | t => conform st (default_of atom default c d) t end.
Proof.
  intros I D. pose proof (default_types c d I D) as T. unfold default_of. destruct (d_type d) as [s|f|m|cs|t n].
  - reflexivity.
  - apply scal_default.
  - discriminate T.
  - discriminate T.
  - destruct n as [|n]; [cbn; auto with arith|]. injection T as -> ->. cbn [conform]. split; [cbn; lia|]. cbn.
    split; [apply (default_instrument st)|exact Logic.I].
Qed.

(** What validation accepts conforms. *)
Definition inst_ok (v : pv) : Prop := exists d l, v = PInst d l /\ conform false v (FModel d).
Lemma model_spec st c l w : model c (pairs validate l) = Some w ->
  Forall (fun e => forall t w, validate (snd e) t = Some w -> conform st w t) l ->
  exists q, w = PInst c q /\ cfields c (pairs (conform st) q).
Proof.
  unfold Schema_Model.model. intros H F. destruct (all _) as [q|] eqn:E; [|discriminate]. destruct (check c q) eqn:K; [|discriminate]. injection H as <-.
  exists q. split; [reflexivity|]. apply all_In in E.
  assert (N : map fst q = map d_name (fields c)).
  { clear K. induction E as [|d e ds q H E IH]; [reflexivity|]. cbn. rewrite IH. f_equal. destruct (find _ _) as [[v k]|].
    - destruct (match d_type d with FScalar f => _ | _ => _ end); [|discriminate]. injection H as <-. reflexivity.
    - destruct (d_dflt d); [discriminate|]. injection H as <-. reflexivity. }
  apply cfields_iff. split; [exact N|]. split; [exact K|]. intros d I.
  assert (M : exists e, In e q /\ match find (d_name d) (pairs validate l) with
                           | Some (v, k) => option_map (pair (d_name d)) (match d_type d with FScalar f => scalar c f v | t => k t end)
                           | None => match d_dflt d with Required => None | Default => Some (d_name d, default_of atom default c d) end
                           end = Some e).
  { clear - E I. induction E as [|d' e ds q H E IH]; [destruct I|]. destruct I as [-> | I]; [exists e; split; [now left|exact H]|]. destruct (IH I) as (e' & A & B). exists e'. split; [now right|exact B]. }
  destruct M as ([n v] & Q & M). exists v. rewrite find_pairs in M. assert (U : n = d_name d -> find (d_name d) q = Some v).
  { intros <-. apply find_unique; [rewrite N; apply names_nodup|exact Q]. }
  destruct (find (d_name d) l) as [x|] eqn:L; cbn [option_map] in M.
  - destruct (match d_type d with FScalar f => _ | _ => _ end) as [y|] eqn:V; [|discriminate]. injection M as <- <-. split; [now apply U|].
    apply find_In in L. rewrite Forall_forall in F. specialize (F _ L). cbn in F. destruct (d_type d); try (now apply F). now apply scal_accepted in V.
  - destruct (d_dflt d) eqn:D; [discriminate|]. injection M as <- <-. split; [now apply U|]. now apply default_conform.
Qed.
Lemma validate_conform st v : (st = true -> plain v) -> (forall x, In x (insts v) -> inst_ok x) -> forall t w, validate v t = Some w -> conform st w t.
Proof.
  induction v as [a|a|l IH|l IH|c l IH] using pv_rect'; intros P O t w H.
  - destruct t; discriminate.
  - destruct t; try discriminate. cbn in *. destruct (a =? s) eqn:E; [|discriminate]. injection H as <-. now apply String.eqb_eq.
  - destruct t as [s|f|c|cs|t n]; try discriminate. cbn in H. destruct (Nat.leb n (length l)) eqn:L; [|discriminate]. apply Nat.leb_le in L. destruct (all _) as [q|] eqn:E; [|discriminate]. injection H as <-.
    apply all_In in E. apply conform_list. assert (LQ : length l = length q) by (clear - E; induction E; cbn; congruence). split; [lia|].
    assert (P' : forall x, In x l -> st = true -> plain x).
    { intros x X S. specialize (P S). unfold plain in *. cbn in P. clear - P X. induction l as [|y l IH]; [destruct X|]. cbn in P. apply app_eq_nil in P. destruct P. destruct X as [-> |]; auto. }
    assert (O' : forall x, In x l -> forall y, In y (insts x) -> inst_ok y).
    { intros x X y Y. apply O. cbn. apply in_flat_map. now exists x. }
    clear - IH E P' O'. induction E as [|x y l q H E IHE]; [constructor|]. inversion IH; subst. constructor.
    + eapply H2; eauto; [apply P'; now left|apply O'; now left].
    + apply IHE; [assumption|intros; apply P'; [now right|assumption]|intros z Z; apply O'; now right].
  - assert (F : Forall (fun e => forall t w, validate (snd e) t = Some w -> conform st w t) l).
    { apply Forall_forall. intros e E. rewrite Forall_forall in IH. intros t' w' H'. apply (IH e E); [| |exact H'].
      - intro S. specialize (P S). unfold plain in *. cbn in P. clear - P E. induction l as [|y l IH]; [destruct E|]. cbn in P. apply app_eq_nil in P. destruct P. destruct E as [-> |]; auto.
      - intros x X. apply O. cbn. apply in_flat_map. now exists e. }
    destruct t as [s|f|c|cs|t n]; try discriminate.
    + change (model c (pairs validate l) = Some w) in H. destruct (model_spec st _ _ _ H F) as (q & -> & C). apply conform_model. split; [destruct st; [reflexivity|apply isinstance_refl]|exact C].
    + change (choose (flat_map (fun c => match model c (pairs validate l) with Some x => [x] | None => [] end) cs) = Some w) in H.
      apply (proj1 CH) in H. apply in_flat_map in H. destruct H as (c & I & H). destruct (model c _) as [x|] eqn:E; [|destruct H]. destruct H as [-> |[]].
      destruct (model_spec st _ _ _ E F) as (q & -> & C). apply conform_union. split; [|exact C]. destruct st; [exact I|]. apply existsb_exists. exists c. split; [exact I|apply isinstance_refl].
  - destruct st; [discriminate (P eq_refl)|]. destruct (O (PInst c l) (or_introl eq_refl)) as (d & q & E & C). injection E as <- <-. apply conform_model in C. destruct C as [_ C].
    destruct t as [s|f|m|cs|t n]; try discriminate; cbn in H.
    + destruct (isinstance c m) eqn:I; [|discriminate]. injection H as <-. apply conform_model. now split.
    + destruct (existsb _ cs) eqn:I; [|discriminate]. injection H as <-. apply conform_union. now split.
Qed.
Lemma made_ok v : made atom scalar default walker_check choose v -> inst_ok v.
Proof.
  induction 1 as [c kw o IH1 IH H]. assert (C : conform false o (FModel c)) by (apply (validate_conform false (PDict kw)); [discriminate|exact IH|exact H]).
  destruct o as [| | | |d l]; try destruct C. exists d, l. split; [reflexivity|]. apply conform_model. split; [apply isinstance_refl|]. assumption.
Qed.

(** Saved values have no instances. *)
Lemma plain_list (l : list pv) : plain (PList l) <-> Forall plain l.
Proof. unfold plain. cbn. induction l; cbn; [split; auto|]. rewrite Forall_cons_iff, <- IHl. split; [apply app_eq_nil|intros [-> ->]; reflexivity]. Qed.
Lemma plain_dict (l : list (string * pv)) : plain (PDict l) <-> Forall (fun e => plain (snd e)) l.
Proof. unfold plain. cbn. induction l; cbn; [split; auto|]. rewrite Forall_cons_iff, <- IHl. split; [apply app_eq_nil|intros [-> ->]; reflexivity]. Qed.
Lemma save_plain d c l : isinstance d c = true ->
  (forall x v, In x (fields d) -> find (d_name x) l = Some v -> match d_type x with FScalar f => scal d f v | t => forall t', kind_of t' = kind_of t -> plain (dump v t') end) ->
  plain (save_as c (pairs dump l)).
Proof.
  intros I H. unfold Schema_Model.save_as. apply plain_dict. apply Forall_forall. intros e E. apply in_flat_map in E. destruct E as (x & X & E).
  rewrite find_pairs in E. destruct (find (d_name x) l) as [v|] eqn:F; [|destruct E]. destruct E as [<-|[]]. cbn.
  destruct (inherited _ _ _ I X) as (y & Y & N & K). rewrite <- N in F. specialize (H y v Y F).
  destruct (d_type x) eqn:T; destruct (d_type y) eqn:U; cbn in K; try discriminate; try (apply H; cbn; congruence).
  destruct SR as (_ & B & _). apply B. apply H.
Qed.
Lemma saver_instance cs d : isinstance d (saver cs d) = true.
Proof.
  unfold saver. destruct (existsb _ cs); [apply isinstance_refl|]. destruct (filter _ cs) as [|c r] eqn:E; [apply isinstance_refl|].
  assert (I : In c (filter (isinstance d) cs)) by (rewrite E; now left). apply filter_In in I. apply I.
Qed.
Lemma dump_plain v : forall t, conform false v t -> forall t', kind_of t' = kind_of t -> plain (dump v t').
Proof.
  induction v as [a|a|l IH|l IH|d l IH] using pv_rect'; intros t C t' K.
  - destruct t'; reflexivity.
  - destruct t'; reflexivity.
  - destruct t as [s|f|c|cs|t n]; try (destruct C; fail). apply conform_list in C. destruct C as [_ C]. destruct t' as [s'|f'|c'|cs'|t' n']; cbn in K; try discriminate. injection K as K.
    cbn. apply plain_list. apply Forall_forall. intros x X. apply in_map_iff in X. destruct X as (y & <- & Y). rewrite Forall_forall in IH, C. exact (IH y Y t (C y Y) t' K).
  - destruct t; destruct C.
  - assert (CF : cfields d (pairs (conform false) l)) by (destruct t as [s|f|c|cs|t n]; try destruct C; assumption).
    apply cfields_iff in CF. destruct CF as (_ & _ & CF).
    assert (H : forall x v, In x (fields d) -> find (d_name x) l = Some v -> match d_type x with FScalar f => scal d f v | t => forall t', kind_of t' = kind_of t -> plain (dump v t') end).
    { intros x v X F. destruct (CF x X) as (w & W & M). rewrite F in W. injection W as <-. apply find_In in F. rewrite Forall_forall in IH. specialize (IH _ F). cbn in IH. destruct (d_type x); try exact M; now apply IH. }
    destruct t' as [s1|f1|c1|cs1|t1 n1]; cbn in K; try (destruct t as [s|f|c|cs|t n]; try discriminate K; destruct C; fail).
    + apply (save_plain d); [|exact H]. destruct (isinstance d c1) eqn:E; [exact E|apply isinstance_refl].
    + apply (save_plain d); [|exact H]. apply saver_instance.
Qed.

(** Strictly conforming values are restored. *)
Lemma saved_fields d l : map fst l = map d_name (fields d) -> NoDup (map fst l) ->
  save_as d (pairs dump l) = PDict (map (fun x => (d_name x, match find (d_name x) l with Some v => match d_type x with FScalar f => saved d f v | t => dump v t end | None => PStr "" end)) (fields d)).
Proof.
  intros N U. unfold Schema_Model.save_as. f_equal. assert (H : forall x, In x (fields d) -> find (d_name x) l <> None).
  { intros x X F. apply find_none in F. apply F. rewrite N. now apply in_map. }
  induction (fields d) as [|x r IH] in H |- *; [reflexivity|]. cbn. rewrite find_pairs. specialize (H x (or_introl eq_refl)) as HX. destruct (find (d_name x) l) as [v|]; [|congruence]. cbn. f_equal. apply IH. intros y Y. apply H. now right.
Qed.
Lemma find_declared {A} (g : decl -> A) c x : In x (fields c) -> find (d_name x) (map (fun y => (d_name y, g y)) (fields c)) = Some (g x).
Proof.
  intro X. apply find_unique; [rewrite map_map; apply names_nodup|]. apply in_map_iff. now exists x.
Qed.
Lemma restore_model d l : map fst l = map d_name (fields d) -> check d l = true ->
  (forall x, In x (fields d) -> exists v, find (d_name x) l = Some v /\ match d_type x with FScalar f => scal d f v | t => validate (dump v t) t = Some v end) ->
  exists q, save_as d (pairs dump l) = PDict q /\ model d (pairs validate q) = Some (PInst d l)
    /\ forall x, In x (fields d) -> exists v, find (d_name x) l = Some v /\ find (d_name x) q = Some (match d_type x with FScalar f => saved d f v | t => dump v t end).
Proof.
  intros N K H. assert (U : NoDup (map fst l)) by (rewrite N; apply names_nodup). eexists. split; [now apply saved_fields|]. split.
  - unfold Schema_Model.model. erewrite all_of; [rewrite K; reflexivity|].
    assert (G : forall ds es, map fst es = map d_name ds -> (forall x, In x ds -> In x (fields d)) -> (forall e, In e es -> In e l) ->
      Forall2 (fun a b => match find (d_name a) (pairs validate (map (fun x => (d_name x, match find (d_name x) l with Some v => match d_type x with FScalar f => saved d f v | t => dump v t end | None => PStr "" end)) (fields d))) with
                 | Some (v, k) => option_map (pair (d_name a)) (match d_type a with FScalar f => scalar d f v | t => k t end)
                 | None => match d_dflt a with Required => None | Default => Some (d_name a, default_of atom default d a) end end = Some b) ds es).
    { induction ds as [|x ds IH]; intros [|e es] M I J; try discriminate; constructor.
      - cbn in M. injection M as M1 M2. assert (X : In x (fields d)) by (apply I; now left). rewrite find_pairs, (find_declared _ d x X). cbn [option_map].
        destruct (H x X) as (v & F & T). assert (E : find (d_name x) l = Some (snd e)).
        { apply find_unique; [exact U|]. rewrite <- M1. destruct e. apply J. now left. }
        rewrite E in F |- *. injection F as F; subst v. rewrite <- M1.
        destruct (d_type x) as [s|f|c|cs|t n]; [ | destruct T as [T _] | | | ]; rewrite T; now destruct e.
      - cbn in M. injection M as M1 M2. apply IH; [exact M2|intros; apply I; now right|intros; apply J; now right]. }
    apply G; auto.
  - intros x X. destruct (H x X) as (v & F & _). exists v. split; [exact F|]. rewrite (find_declared _ d x X), F. reflexivity.
Qed.
Lemma restore v : forall t, fair_type t -> conform true v t -> validate (dump v t) t = Some v.
Proof.
  induction v as [a|a|l IH|l IH|d l IH] using pv_rect'; intros t FT C.
  - destruct t; destruct C.
  - destruct t; try destruct C. cbn. now rewrite String.eqb_refl.
  - destruct t as [s|f|c|cs|t n]; try (destruct C; fail). apply conform_list in C. destruct C as [L C]. cbn. rewrite map_length. apply Nat.leb_le in L. rewrite L.
    rewrite map_map. erewrite all_of; [reflexivity|]. clear L. cbn in FT. induction l as [|x l IHl]; [constructor|]. inversion IH; inversion C; subst. constructor; auto.
  - destruct t; destruct C.
  - assert (CF : cfields d (pairs (conform true) l)) by (destruct t as [s|f|c|cs|t n]; try destruct C; assumption).
    apply cfields_iff in CF. destruct CF as (N & K & CF).
    destruct (restore_model d l N K) as (q & S & M & F).
    { intros x X. destruct (CF x X) as (v & FV & T). exists v. split; [exact FV|]. apply find_In in FV. rewrite Forall_forall in IH. specialize (IH _ FV). cbn in IH. pose proof (fields_fair d x X) as FX. destruct (d_type x); try exact T; now apply IH. }
    destruct t as [s|f|c|cs|t n]; try (destruct C; fail).
    + destruct C as [-> _]. change (validate (save_as (if isinstance c c then c else c) (pairs dump l)) (FModel c) = Some (PInst c l)). rewrite isinstance_refl, S. exact M.
    + destruct C as [I _]. change (validate (save_as (saver cs d) (pairs dump l)) (FUnion cs) = Some (PInst d l)).
      replace (saver cs d) with d by (unfold saver; replace (existsb (cls_eqb d) cs) with true; [reflexivity|]; symmetry; apply existsb_exists; exists d; split; [exact I|now apply cls_eqb_spec]).
      rewrite S. change (choose (flat_map (fun c => match model c (pairs validate q) with Some x => [x] | None => [] end) cs) = Some (PInst d l)).
      assert (TY : forall c, In c cs -> c <> d -> model c (pairs validate q) = None).
      { intros c IC NE. destruct FT as [_ FT]. destruct (type_name c) as [sc|] eqn:TC; [|now apply FT in TC]. destruct (type_name d) as [sd|] eqn:TD; [|now apply FT in TD].
        assert (DIFF : sd <> sc) by (intros ->; apply NE; eapply type_name_inj; eassumption).
        destruct (F (tag sd) (tag_field d sd TD)) as (v & FV & FQ). cbn in FV, FQ. destruct (CF (tag sd) (tag_field d sd TD)) as (v' & FV' & T). cbn in FV', T. rewrite FV in FV'. injection FV' as <-.
        destruct v as [| | | |]; try destruct T. cbn in FQ.
        unfold Schema_Model.model. destruct (all _) as [r|] eqn:E; [|reflexivity]. exfalso. apply all_In in E. pose proof (tag_field c sc TC) as IT.
        clear - E IT FQ DIFF. induction E as [|x e ds r H E IHE]; [destruct IT|]. destruct IT as [-> | IT]; [|now apply IHE].
        rewrite find_pairs in H. cbn [tag d_name d_type] in H. rewrite FQ in H. cbn in H. apply String.eqb_neq in DIFF. rewrite DIFF in H. discriminate. }
      assert (LST : flat_map (fun c => match model c (pairs validate q) with Some x => [x] | None => [] end) cs = [PInst d l]).
      { destruct FT as [ND _]. clear - I ND TY M. induction cs as [|c cs IHcs]; [destruct I|]. cbn. inversion ND; subst. destruct (cls_eq_dec c d) as [-> | NE].
        - rewrite M. cbn. f_equal. clear IHcs I. assert (TY' : forall c, In c cs -> model c (pairs validate q) = None) by (intros c IC; apply TY; [now right|intros ->; contradiction]).
          clear - TY'. induction cs as [|c cs IHc]; [reflexivity|]. cbn. rewrite (TY' c (or_introl eq_refl)). cbn. apply IHc. intros; apply TY'. now right.
        - rewrite (TY c (or_introl eq_refl) NE). cbn. apply IHcs; auto; [destruct I; [congruence|assumption]|intros c0 I0; apply TY; now right]. }
      rewrite LST. destruct CH as [C1 C2]. destruct (choose [PInst d l]) as [x|] eqn:E; [|now apply C2 in E]. apply C1 in E. destruct E as [<-|[]]. reflexivity.
Qed.

(** Strict conformance is conformance together with declared classes. *)
Lemma annotation_decl c n t : annotation c n = Some t <-> exists d, In d (fields c) /\ d_name d = n /\ d_type d = t.
Proof.
  unfold annotation. split.
  - intro H. apply find_In in H. apply in_map_iff in H. destruct H as (d & E & I). injection E as <- <-. now exists d.
  - intros (d & I & <- & <-). now apply (find_declared d_type).
Qed.
Lemma plain_elements (v : pv) x d : plain v -> In x (elements v) -> class x = Some d -> False.
Proof.
  intros P I C. assert (PX : plain x).
  { destruct v; cbn in I; try (destruct I as [<-|[]]; exact P). apply plain_list in P. rewrite Forall_forall in P. now apply P. }
  destruct x; try discriminate.
Qed.
Definition flat_type (t : ftype) : Prop := match t with FList (FList _ _) _ => False | _ => True end.
Lemma fields_flat c d : In d (fields c) -> flat_type (d_type d).
Proof.
  destruct c; cbn [fields circular_fields molniya_fields base_fields instrument_fields satellite_fields app]; intro I;
    repeat (destruct I as [<-|I]; [exact Logic.I|]); destruct I.
Qed.
Lemma conform_class st d l t : conform st (PInst d l) t -> cfields d (pairs (conform st) l) /\ (st = true -> In d (named t)).
Proof.
  intro C. destruct t as [s|f|c|cs|t n]; try (destruct C; fail).
  - apply conform_model in C. destruct C as [A B]. split; [exact B|]. intros ->. now left.
  - apply conform_union in C. destruct C as [A B]. split; [exact B|]. intros ->. exact A.
Qed.
Lemma strict_declared v : forall t, flat_type t -> conform true v t -> forall x d, In x (elements v) -> class x = Some d -> In d (named t) /\ as_declared x.
Proof.
  induction v as [a|a|l IH|l IH|c l IH] using pv_rect'; intros t FT C x d X D.
  - destruct t; destruct C.
  - destruct X as [<-|[]]. discriminate.
  - destruct t as [s|f|c|cs|t n]; try (destruct C; fail). apply conform_list in C. destruct C as [_ C]. cbn in X. rewrite Forall_forall in IH, C.
    destruct x as [| | | |e m]; try discriminate. cbn [named]. eapply (IH _ X t); [destruct t; try exact Logic.I; destruct FT|now apply C|now left|exact D].
  - destruct t; destruct C.
  - destruct X as [<-|[]]. injection D as <-. apply conform_class in C. destruct C as [CF N]. split; [now apply N|]. constructor. intros n t' v x G A I e E.
    apply cfields_iff in CF. destruct CF as (_ & _ & CF). apply annotation_decl in A. destruct A as (y & Y & NY & TY). destruct (CF y Y) as (w & W & T). cbn in G. rewrite NY, G in W. injection W as <-.
    apply find_In in G. rewrite Forall_forall in IH. specialize (IH _ G). cbn in IH. pose proof (fields_flat c y Y) as FY. rewrite TY in *.
    destruct t'; try (now apply IH). exfalso. eapply plain_elements; [exact (proj2 T)|exact I|exact E].
Qed.
Lemma declared_strict v : forall t, flat_type t -> conform false v t -> (forall x d, In x (elements v) -> class x = Some d -> In d (named t) /\ as_declared x) -> conform true v t.
Proof.
  induction v as [a|a|l IH|l IH|c l IH] using pv_rect'; intros t FT C H.
  - destruct t; destruct C.
  - destruct t; try (destruct C; fail). exact C.
  - destruct t as [s|f|c|cs|t n]; try (destruct C; fail). apply conform_list in C. apply conform_list. destruct C as [L C]. split; [exact L|]. rewrite Forall_forall in *. intros x X.
    apply (IH x X); [destruct t; try exact Logic.I; destruct FT|now apply C|]. intros y d Y D. apply H; [|exact D]. cbn. destruct x; cbn in Y; try (destruct Y as [<-|[]]; exact X).
    exfalso. specialize (C _ X). destruct t; try destruct C. destruct FT.
  - destruct t; destruct C.
  - destruct (H (PInst c l) c (or_introl eq_refl) eq_refl) as [N AD]. inversion AD as [c' l' AD']; subst. pose proof C as C0. apply conform_class in C0. destruct C0 as [CF _].
    assert (CT : cfields c (pairs (conform true) l)).
    { apply cfields_iff in CF. apply cfields_iff. destruct CF as (A & B & CF). split; [exact A|]. split; [exact B|]. intros d D. destruct (CF d D) as (v & F & T). exists v. split; [exact F|].
      pose proof (find_In _ _ _ F) as IN. rewrite Forall_forall in IH. specialize (IH _ IN). cbn in IH. pose proof (fields_flat c d D) as FY.
      assert (HH : forall x e, In x (elements v) -> class x = Some e -> In e (named (d_type d)) /\ as_declared x).
      { intros x e X E. eapply AD'; [exact F|apply annotation_decl; now exists d|exact X|exact E]. }
      destruct (d_type d); try exact T; now apply IH. }
    destruct t as [s|f|m|cs|t n]; try (destruct C; fail).
    + apply conform_model. split; [destruct N as [<-|[]]; reflexivity|exact CT].
    + apply conform_union. now split.
Qed.
Lemma restored_iff o c : made atom scalar default walker_check choose o -> class o = Some c ->
  (load atom scalar default walker_check choose c (save atom saved o) = Some o <-> as_declared o).
Proof.
  intros M C. destruct (made_ok o M) as (d & l & -> & CF). injection C as <-. unfold load, save. split.
  - intro H. assert (P : plain (dump (PInst d l) (FModel d))) by (apply (dump_plain _ (FModel d)); [exact CF|reflexivity]).
    assert (S : conform true (PInst d l) (FModel d)).
    { apply (validate_conform true (dump (PInst d l) (FModel d))); [intros _; exact P|intros x X; unfold plain in P; rewrite P in X; destruct X|exact H]. }
    exact (proj2 (strict_declared _ (FModel d) Logic.I S _ _ (or_introl eq_refl) eq_refl)).
  - intro A. apply restore; [exact Logic.I|]. apply declared_strict; [exact Logic.I|exact CF|]. intros x e X E. destruct X as [<-|[]]. injection E as <-. split; [now left|exact A].
Qed.
(** Everything read from a file is restored. *)
Lemma loaded_declared c kw o : plain (PDict kw) -> construct atom scalar default walker_check choose c kw = Some o -> as_declared o /\ class o = Some c.
Proof.
  intros P H. assert (S : conform true o (FModel c)).
  { apply (validate_conform true (PDict kw)); [auto|intros x X; unfold plain in P; rewrite P in X; destruct X|exact H]. }
  destruct o as [| | | |d l]; try (destruct S; fail). destruct (strict_declared _ (FModel c) Logic.I S _ _ (or_introl eq_refl) eq_refl) as [[->|[]] A]. now split.
Qed.
Lemma plain_made c kw o : plain (PDict kw) -> construct atom scalar default walker_check choose c kw = Some o -> made atom scalar default walker_check choose o.
Proof. intros P H. eapply made_by; [|exact H]. intros x X. unfold plain in P. rewrite P in X. destruct X. Qed.
Lemma loaded_restored c kw o : plain (PDict kw) -> construct atom scalar default walker_check choose c kw = Some o ->
  load atom scalar default walker_check choose c (save atom saved o) = Some o.
Proof. intros P H. destruct (loaded_declared c kw o P H) as [A C]. apply restored_iff; [eapply plain_made; eassumption|exact C|exact A]. Qed.

(** The fields of a constructed object. *)
Notation valid := (fun c (d : decl) v => match d_type d with FScalar f => scalar c f v | t => validate v t end).
Lemma construct_fields c kw o : construct atom scalar default walker_check choose c kw = Some o ->
  class o = Some c /\ forall d, In d (fields c) -> exists w, getattr o (d_name d) = Some w /\
    match find (d_name d) kw with Some v => valid c d v = Some w | None => d_dflt d = Default /\ w = default_of atom default c d end.
Proof.
  intro H. change (model c (pairs validate kw) = Some o) in H. unfold Schema_Model.model in H. destruct (all _) as [q|] eqn:E; [|discriminate]. destruct (check c q); [|discriminate]. injection H as <-.
  split; [reflexivity|]. intros d D. apply all_In in E.
  assert (N : map fst q = map d_name (fields c)).
  { clear D. induction E as [|x e ds q H E IH]; [reflexivity|]. cbn. rewrite IH. f_equal. destruct (find _ _) as [[v k]|].
    - destruct (match d_type x with FScalar f => _ | _ => _ end); [|discriminate]. injection H as <-. reflexivity.
    - destruct (d_dflt x); [discriminate|]. injection H as <-. reflexivity. }
  assert (M : exists w, In (d_name d, w) q /\ match find (d_name d) kw with Some v => valid c d v = Some w | None => d_dflt d = Default /\ w = default_of atom default c d end).
  { clear N. induction E as [|x e ds q H E IH]; [destruct D|]. destruct D as [-> | D]; [|destruct (IH D) as (e' & A & B); exists e'; split; [now right|exact B]].
    rewrite find_pairs in H. destruct (find (d_name d) kw) as [v|]; cbn [option_map] in H.
    - match goal with H : option_map _ ?m = _ |- _ => destruct m as [w|] eqn:V end; [|discriminate]. injection H as <-. exists w. split; [now left|]. reflexivity.
    - destruct (d_dflt d); [discriminate|]. injection H as <-. eexists. split; [left; reflexivity|]. now split. }
  destruct M as (w & I & M). exists w. split; [|exact M]. cbn. apply find_unique; [rewrite N; apply names_nodup|exact I].
Qed.
Lemma construct_exists c kw : (forall l, check c l = true) ->
  (forall d, In d (fields c) -> match find (d_name d) kw with Some v => valid c d v <> None | None => d_dflt d = Default end) ->
  construct atom scalar default walker_check choose c kw <> None.
Proof.
  intros K H. change (model c (pairs validate kw) <> None). unfold Schema_Model.model.
  assert (E : exists q, all (map (fun d => match find (d_name d) (pairs validate kw) with
                           | Some (v, k) => option_map (pair (d_name d)) (match d_type d with FScalar f => scalar c f v | t => k t end)
                           | None => match d_dflt d with Required => None | Default => Some (d_name d, default_of atom default c d) end
                           end) (fields c)) = Some q).
  { revert H. generalize (fields c) as ds. induction ds as [|d ds IH]; intro H; [now exists []|]. destruct IH as [q IH]; [intros x X; apply H; now right|]. specialize (H d (or_introl eq_refl)).
    cbn [map all]. rewrite IH. rewrite find_pairs. destruct (find (d_name d) kw) as [v|]; cbn [option_map].
    - destruct (match d_type d with FScalar f => scalar c f v | _ => _ end) eqn:V; [|congruence]. cbn. eauto.
    - rewrite H. eauto. }
  destruct E as [q E]. rewrite E. rewrite K. discriminate.
Qed.
Lemma construct_ext c kw kw' : (forall d, In d (fields c) -> find (d_name d) kw = find (d_name d) kw') ->
  construct atom scalar default walker_check choose c kw = construct atom scalar default walker_check choose c kw'.
Proof.
  intro H. change (model c (pairs validate kw) = model c (pairs validate kw')). unfold Schema_Model.model.
  match goal with |- match all (map ?g _) with _ => _ end = match all (map ?h _) with _ => _ end => assert (E : map g (fields c) = map h (fields c)) end.
  { apply map_ext_in. intros d D. rewrite !find_pairs. now rewrite (H d D). }
  now rewrite E.
Qed.
Lemma union_instance d l cs w : validate (PInst d l) (FUnion cs) = Some w -> w = PInst d l /\ existsb (isinstance d) cs = true.
Proof. cbn -[existsb isinstance]. destruct (existsb (isinstance d) cs); [|discriminate]. intros [= <-]. now split. Qed.
Lemma model_instance d l c w : validate (PInst d l) (FModel c) = Some w -> w = PInst d l /\ isinstance d c = true.
Proof. cbn -[isinstance]. destruct (isinstance d c); [|discriminate]. intros [= <-]. now split. Qed.

(** Orbits. *)
Lemma orbit_field c : space_system c -> exists t, In (mk_decl "orbit" t Required) (fields c) /\ (t = FUnion orbit_union \/ t = FModel Circular) /\
  forall d l, validate (PInst d l) t <> None <-> In d (orbits_of c).
Proof.
  intros [<-|[<-|[<-|[<-|[<-|[]]]]]]; [exists (FUnion orbit_union)|exists (FUnion orbit_union)|exists (FUnion orbit_union)|exists (FModel Circular)|exists (FModel Circular)];
    (split; [cbn; tauto|]; split; [tauto|]; intros d l; destruct d; cbn; split; (intros; try tauto; try discriminate; repeat (match goal with H : _ \/ _ |- _ => destruct H | H : _ = _ |- _ => discriminate H | H : False |- _ => destruct H end))).
Qed.
Lemma orbit_assigned c kw o f d : space_system c -> construct atom scalar default walker_check choose c kw = Some o ->
  find "orbit" kw = Some f -> class f = Some d -> In d (orbits_of c) /\ getattr o "orbit" = Some f.
Proof.
  intros S H F D. destruct (orbit_field c S) as (t & I & T & V). destruct (construct_fields c kw o H) as (_ & G). destruct (G _ I) as (w & W & M). cbn [d_name d_type] in W, M. rewrite F in M.
  destruct f as [| | | |d' l]; try discriminate. injection D as <-. split.
  - apply (V d' l). destruct T as [-> | ->]; rewrite M; discriminate.
  - rewrite W. f_equal. destruct T as [-> | ->]; [now apply union_instance in M|now apply model_instance in M].
Qed.
Lemma orbit_replaced c kw f d : space_system c -> c <> Walker -> construct atom scalar default walker_check choose c kw <> None -> class f = Some d ->
  (construct atom scalar default walker_check choose c (kw ++ [("orbit", f)]) <> None <-> In d (orbits_of c)).
Proof.
  intros S W H D.
  assert (FA : forall n, find n (kw ++ [("orbit", f)]) = if String.eqb "orbit" n then Some f else find n kw).
  { intro n. clear. induction kw as [|[k a] kw IH]; cbn [find app]; [now destruct (String.eqb "orbit" n)|]. rewrite IH. destruct (String.eqb "orbit" n); [reflexivity|]. reflexivity. }
  split.
  - intro K. destruct (construct atom scalar default walker_check choose c (kw ++ _)) as [o|] eqn:E; [|congruence]. eapply (proj1 (orbit_assigned c _ o f d S E _ D)). Unshelve. rewrite FA. reflexivity.
  - intro I. destruct (construct atom scalar default walker_check choose c kw) as [o|] eqn:E; [|congruence]. clear H. destruct (construct_fields c kw o E) as (_ & G). destruct (orbit_field c S) as (t & IT & T & V).
    apply construct_exists; [destruct c; try reflexivity; congruence|]. intros x X. rewrite FA. destruct (String.eqb "orbit" (d_name x)) eqn:Q.
    + apply String.eqb_eq in Q. assert (x = mk_decl "orbit" t Required).
      { pose proof (names_nodup c) as ND. clear -X IT ND Q. induction (fields c) as [|y ds IH]; [destruct X|]. cbn in ND. inversion ND; subst. destruct X as [-> |X], IT as [E|IT]; [exact E| | |now apply IH].
        - exfalso. apply H1. rewrite <- Q. change "orbit" with (d_name (mk_decl "orbit" t Required)). now apply in_map.
        - subst y. exfalso. apply H1. cbn. rewrite Q. now apply in_map. }
      subst x. cbn [d_type]. destruct f as [| | | |d' l]; try discriminate. injection D as <-. apply (V d' l) in I. destruct T as [-> | ->]; exact I.
    + destruct (G x X) as (w & _ & M). destruct (find (d_name x) kw) as [v|]; [now rewrite M|tauto].
Qed.
Lemma orbit_kept c kw o : space_system c -> c <> Mog -> c <> Soc -> construct atom scalar default walker_check choose c kw = Some o ->
  exists f d, getattr o "orbit" = Some f /\ class f = Some d /\ In d [Tle; Circular; Sso; Keplerian].
Proof.
  intros S M1 M2 H. destruct (orbit_field c S) as (t & I & T & V). destruct (construct_fields c kw o H) as (_ & G). destruct (G _ I) as (w & W & M). cbn [d_name d_type d_dflt] in W, M.
  assert (TT : t = FUnion orbit_union).
  { clear -I S M1 M2. destruct S as [<-|[<-|[<-|[<-|[<-|[]]]]]]; try congruence; cbn in I; repeat (destruct I as [I|I]; [injection I; congruence || discriminate I|]); try destruct I. }
  subst t. destruct (find "orbit" kw) as [v|]; [|destruct M; discriminate]. destruct v as [a|a|l|l|d' l]; cbn -[existsb isinstance orbit_union] in M; try discriminate.
  - apply (proj1 CH) in M. apply in_flat_map in M. destruct M as (e & E & M). destruct (model e _) eqn:Z in M; [|destruct M]. destruct M as [->|[]].
    change (construct atom scalar default walker_check choose e l = Some w) in Z. destruct (construct_fields _ _ _ Z) as (C & _). exists w, e. now repeat split.
  - destruct (existsb (isinstance d') orbit_union) eqn:X; [|discriminate]. injection M as <-. exists (PInst d' l), d'. repeat split; [exact W|]. destruct d'; try discriminate X; cbn; tauto.
Qed.

(** Instruments. *)
Lemma instruments_loaded c kw o : space_system c -> plain (PDict kw) -> construct atom scalar default walker_check choose c kw = Some o ->
  exists l, getattr o "instruments" = Some (PList l) /\ l <> [] /\ Forall (fun i => class i = Some Instrument) l.
Proof.
  intros S P H. assert (I : In (mk_decl "instruments" (FList (FModel Instrument) 1) Default) (fields c)) by (destruct S as [<-|[<-|[<-|[<-|[<-|[]]]]]]; cbn; tauto).
  assert (CO : conform true o (FModel c)).
  { apply (validate_conform true (PDict kw)); [auto|intros x X; unfold plain in P; rewrite P in X; destruct X|exact H]. }
  destruct o as [| | | |c' q]; try (destruct CO; fail). apply conform_model in CO. destruct CO as [-> CF]. apply cfields_iff in CF. destruct CF as (_ & _ & CF). destruct (CF _ I) as (v & F & T). cbn [d_name d_type] in F, T.
  destruct v as [| |l| |]; try (destruct T; fail). apply conform_list in T. destruct T as [L T]. exists l. split; [exact F|]. split; [intros ->; cbn in L; inversion L|].
  eapply Forall_impl; [|exact T]. intros i C. destruct i; try (destruct C; fail). apply conform_model in C. destruct C as [-> _]. reflexivity.
Qed.
(** Types. *)
Lemma typed_construct c kw o s : type_name c = Some s -> construct atom scalar default walker_check choose c kw = Some o ->
  getattr o "type" = Some (PStr s) /\ forall v, find "type" kw = Some v -> v = PStr s.
Proof.
  intros T H. pose proof (tag_field c s T) as I. destruct (construct_fields c kw o H) as (_ & G). destruct (G _ I) as (w & W & M). cbn [d_name tag d_type] in W, M. destruct (find "type" kw) as [v|].
  - destruct v; cbn in M; try discriminate. destruct (String.eqb s0 s) eqn:E; [|discriminate]. apply String.eqb_eq in E. injection M as <-. subst. split; [exact W|]. now intros v [= <-].
  - destruct M as [_ ->]. split; [exact W|]. discriminate.
Qed.
Lemma typed_union cs l w s : Forall (fun c => type_name c <> None) cs -> validate (PDict l) (FUnion cs) = Some w -> find "type" l = Some (PStr s) ->
  exists c, In c cs /\ class w = Some c /\ type_name c = Some s /\ construct atom scalar default walker_check choose c l = Some w.
Proof.
  intros T M F. cbn -[existsb isinstance] in M. apply (proj1 CH) in M. apply in_flat_map in M. destruct M as (e & E & M). destruct (model e _) eqn:Z in M; [|destruct M]. destruct M as [->|[]].
  change (construct atom scalar default walker_check choose e l = Some w) in Z. destruct (construct_fields _ _ _ Z) as (C & _). exists e. split; [exact E|]. split; [exact C|]. split; [|exact Z].
  rewrite Forall_forall in T. specialize (T e E). destruct (type_name e) as [s'|] eqn:TN; [|congruence]. destruct (typed_construct e l w s' TN Z) as (_ & X). specialize (X _ F). injection X as ->. reflexivity.
Qed.
Lemma typed_union_complete cs l s c : Forall (fun c => type_name c <> None) cs -> find "type" l = Some (PStr s) -> In c cs -> type_name c = Some s ->
  validate (PDict l) (FUnion cs) = construct atom scalar default walker_check choose c l.
Proof.
  intros T F I N. destruct (validate (PDict l) (FUnion cs)) as [w|] eqn:E.
  - destruct (typed_union cs l w s T E F) as (c' & _ & _ & N' & Z). rewrite (type_name_inj c c' s N N'). now symmetry.
  - destruct (construct atom scalar default walker_check choose c l) as [w|] eqn:Z; [|reflexivity]. exfalso. cbn -[existsb isinstance] in E.
    destruct (flat_map _ cs) as [|x r] eqn:FM; [|exact (proj2 CH x r E)].
    assert (In w (flat_map (fun c => match model c (pairs validate l) with Some x => [x] | None => [] end) cs)).
    { apply in_flat_map. exists c. split; [exact I|]. change (model c (pairs validate l) = Some w) in Z. rewrite Z. now left. }
    unfold pairs in H. rewrite FM in H. destruct H.
Qed.
Lemma typed_orbit c kw o l s : space_system c -> construct atom scalar default walker_check choose c kw = Some o -> find "orbit" kw = Some (PDict l) -> find "type" l = Some (PStr s) ->
  exists d f, getattr o "orbit" = Some f /\ class f = Some d /\ type_name d = Some s /\ In d (orbits_of c) /\ construct atom scalar default walker_check choose d l = Some f.
Proof.
  intros S H F T. destruct (orbit_field c S) as (t & I & TT & V). destruct (construct_fields c kw o H) as (_ & G). destruct (G _ I) as (w & W & M). cbn [d_name d_type] in W, M. rewrite F in M. destruct TT as [-> | ->].
  - destruct (typed_union orbit_union l w s) as (d & D & C & N & Z); [repeat constructor; discriminate|exact M|exact T|]. exists d, w. repeat split; try assumption. apply (V d []). clear -D. destruct D as [<-|[<-|[<-|[<-|[]]]]]; discriminate.
  - change (construct atom scalar default walker_check choose Circular l = Some w) in M. destruct (construct_fields _ _ _ M) as (C & _). destruct (typed_construct Circular l w "circular" eq_refl M) as (_ & X). specialize (X _ T). injection X as ->.
    exists Circular, w. repeat split; try assumption. apply (V Circular []). discriminate.
Qed.
Lemma satellites_field : In (mk_decl "satellites" (FList (FUnion [Satellite; Train; Walker; Mog]) 0) Default) (fields Architecture).
Proof. cbn. tauto. Qed.
Lemma typed_members kw o ls : construct atom scalar default walker_check choose Architecture kw = Some o -> find "satellites" kw = Some (PList ls) ->
  exists fs, getattr o "satellites" = Some (PList fs) /\ Forall2 (fun x f =>
    (forall l s, x = PDict l -> find "type" l = Some (PStr s) -> exists d, class f = Some d /\ type_name d = Some s /\ construct atom scalar default walker_check choose d l = Some f)
    /\ (class x <> None -> f = x)) ls fs.
Proof.
  intros H F. destruct (construct_fields _ kw o H) as (_ & G). destruct (G _ satellites_field) as (w & W & M). cbn [d_name d_type] in W, M. rewrite F in M. cbn [validate Nat.leb] in M.
  destruct (all _) as [fs|] eqn:E; [|discriminate]. injection M as <-. exists fs. split; [exact W|]. apply all_In in E. clear -E CH. induction E as [|x f ls fs X E IH]; [constructor|]. constructor; [|exact IH]. split.
  - intros l s -> T. destruct (typed_union [Satellite; Train; Walker; Mog] l f s) as (d & _ & C & N & Z); [repeat constructor; discriminate|exact X|exact T|]. now exists d.
  - intro C. destruct x as [| | | |d l]; try (now destruct C). now apply union_instance in X.
Qed.
Lemma architecture_accepted n ls : (forall x, In x ls -> exists l s, x = PDict l /\ find "type" l = Some (PStr s)) ->
  (construct atom scalar default walker_check choose Architecture [("name", n); ("satellites", PList ls)] <> None
   <-> scalar Architecture "name" n <> None /\ forall l, In (PDict l) ls -> exists d s, In d [Satellite; Train; Walker; Mog] /\ type_name d = Some s /\ find "type" l = Some (PStr s) /\ construct atom scalar default walker_check choose d l <> None).
Proof.
  intro TY. assert (TC : Forall (fun c => type_name c <> None) [Satellite; Train; Walker; Mog]) by (repeat constructor; discriminate). split.
  - intro H. destruct (construct atom scalar default walker_check choose Architecture _) as [o|] eqn:E; [|congruence]. destruct (construct_fields _ _ _ E) as (_ & G). split.
    + destruct (G (req "name") (or_introl eq_refl)) as (w & _ & M). cbn in M. now rewrite M.
    + intros l L. destruct (G _ satellites_field) as (w & _ & M). cbn [d_name d_type find String.eqb Ascii.eqb Bool.eqb validate Nat.leb] in M. destruct (all _) as [fs|] eqn:A; [|discriminate]. apply all_In in A.
      destruct (TY _ L) as (l' & s & [= <-] & T). clear -A L T TC CH. induction A as [|x f ls fs X A IH]; [destruct L|]. destruct L as [-> | L]; [|now apply IH].
      destruct (typed_union _ l f s TC X T) as (d & D & C & N & Z). exists d, s. repeat split; try assumption. rewrite Z. discriminate.
  - intros [N L]. apply construct_exists; [reflexivity|]. intros d [<-|[<-|[<-|[]]]].
    + cbn. exact N.
    + cbn [d_name d_type find String.eqb Ascii.eqb Bool.eqb validate Nat.leb].
      assert (E : exists fs, all (map (fun x => validate x (FUnion [Satellite; Train; Walker; Mog])) ls) = Some fs).
      { clear N. induction ls as [|x ls IH]; [now exists []|]. destruct IH as [fs IH]; [intros y Y; apply TY; now right|intros l' I'; apply L; now right|]. cbn [map all]. rewrite IH.
        destruct (TY x (or_introl eq_refl)) as (l & s & -> & T). destruct (L l (or_introl eq_refl)) as (d & s' & D & ND & T' & Z). rewrite (typed_union_complete _ l s' d TC T' D ND).
        destruct (construct atom scalar default walker_check choose d l); [eauto|congruence]. }
      destruct E as [fs E]. cbn [map] in E |- *. rewrite E. discriminate.
    + reflexivity.
Qed.
End Pydantic.
