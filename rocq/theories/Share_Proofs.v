(** Proofs about shared objects. *)
From Coq Require Import List Arith Bool Lia.
From Verif Require Import Share_Model Share_Spec.
Import ListNotations.

Section Proofs.
Context {OV IV PV : Type}.
Local Notation heap := (heap OV IV PV).
Local Notation object := (obj OV IV PV).

Lemma nth_some_lt (h : heap) a o : nth_error h a = Some o -> a < length h.
Proof. intros H. apply nth_error_Some. congruence. Qed.
Lemma nth_ext (h e : heap) a o : nth_error h a = Some o -> nth_error (h ++ e) a = Some o.
Proof. intros H. rewrite nth_error_app1; [exact H|eapply nth_some_lt; eauto]. Qed.
Lemma nth_new (h : heap) o : nth_error (h ++ [o]) (length h) = Some o.
Proof. rewrite nth_error_app2 by lia. rewrite Nat.sub_diag. reflexivity. Qed.

Definition cl (h : heap) (A : addr -> Prop) : Prop := forall a o b, A a -> nth_error h a = Some o -> In b (refs o) -> A b.
Definition pfx (h h' : heap) : Prop := exists e, h' = h ++ e.
Lemma pfx_refl h : pfx h h. Proof. exists []. symmetry. apply app_nil_r. Qed.
Lemma pfx_trans a b c : pfx a b -> pfx b c -> pfx a c.
Proof. intros [e ->] [f ->]. exists (e ++ f). symmetry. apply app_assoc. Qed.
Lemma pfx_nth h h' a o : pfx h h' -> nth_error h a = Some o -> nth_error h' a = Some o.
Proof. intros [e ->]. apply nth_ext. Qed.
Lemma pfx_len h h' : pfx h h' -> length h <= length h'.
Proof. intros [e ->]. rewrite app_length. lia. Qed.
Lemma pfx_back h h' a : pfx h h' -> a < length h -> nth_error h' a = nth_error h a.
Proof. intros [e ->] H. apply nth_error_app1. exact H. Qed.
Lemma pfx_alloc h o : pfx h (h ++ [o]). Proof. exists [o]. reflexivity. Qed.
Lemma cl_pfx h h' (A : addr -> Prop) : pfx h h' -> (forall a, A a -> a < length h) -> cl h A -> cl h' A.
Proof. intros P B C a o b HA HN HI. apply (C a o b HA); [|exact HI]. rewrite <- (pfx_back h h' a P); [exact HN|exact (B a HA)]. Qed.

(* ---- Frame ---- *)
Lemma edits_frame (s : heap * (addr -> Prop)) h' : edits s h' -> forall a, ~ snd s a -> a < length (fst s) -> nth_error h' a = nth_error (fst s) a.
Proof.
  induction 1 as [h A|h A o h' R _ IH|h1 old h2 A o h' HA R _ IH]; cbn [fst snd] in *; intros a NA L.
  - reflexivity.
  - rewrite IH.
    + apply nth_error_app1. exact L.
    + intros [Q|Q]; [exact (NA Q)|lia].
    + rewrite app_length; cbn; lia.
  - rewrite IH by (try exact NA; rewrite app_length in *; cbn in *; lia).
    assert (a <> length h1) by (intros ->; exact (NA HA)).
    destruct (lt_dec a (length h1)) as [Q|Q].
    + rewrite !nth_error_app1 by exact Q. reflexivity.
    + rewrite !nth_error_app2 by lia. destruct (a - length h1) eqn:E; [lia|reflexivity].
Qed.
Lemma reach_in h (A : addr -> Prop) r a : cl h A -> A r -> reach h r a -> A a.
Proof. intros C HR HH. induction HH as [a|a b c o HN HI _ IH]; [exact HR|]. apply IH. exact (C a o b HR HN HI). Qed.
Lemma sees_agree h h' (B : addr -> Prop) t p v is : cl h B -> B t -> (forall a o, B a -> nth_error h a = Some o -> nth_error h' a = Some o) ->
  sees h t p v is -> sees h' t p v is.
Proof.
  intros C HB AG [o l k H1 H2 H3 H4].
  assert (Bo : B o) by (apply (C t _ o HB H1); cbn; auto).
  assert (Bl : B l) by (apply (C t _ l HB H1); cbn; auto).
  assert (Bk : forall x, In x k -> B x) by (intros x Hx; apply (C l _ x Bl H3); exact Hx).
  apply (sees_it h' t p v is o l k); eauto.
  clear H3 Bl. induction H4 as [|x i k is Hx _ IH]; constructor.
  - apply AG; [apply Bk; left; reflexivity|exact Hx].
  - apply IH. intros y Hy. apply Bk. right. exact Hy.
Qed.
Lemma sees_pfx h h' t p v is : pfx h h' -> sees h t p v is -> sees h' t p v is.
Proof.
  intros P. apply (sees_agree h h' (fun _ => True)); [intros ? ? ? ? ? ?; exact Logic.I|exact Logic.I|].
  intros a o _. apply pfx_nth. exact P.
Qed.
Lemma separate_no_effect h roots t (B : addr -> Prop) : cl h B -> B t ->
  (forall r, In r roots -> exists A, cl h A /\ A r /\ forall a, A a -> ~ B a) -> no_effect h roots t.
Proof.
  intros CB HB SEP h' ED p v is S. apply (sees_agree h h' B); [exact CB|exact HB| |exact S].
  intros a o Ba HN. pose proof (edits_frame _ _ ED a) as F. cbn [fst snd] in F. rewrite F; [exact HN| |eapply nth_some_lt; eauto].
  intros (r & HI & HR). destruct (SEP r HI) as (A & CA & Ar & D). exact (D a (reach_in h A r a CA Ar HR) Ba).
Qed.

(* ---- Isolated families of members ---- *)
Definition owns (h0 h : heap) (O : addr -> Prop) (m : addr) : Prop := O m /\ cl h O /\ forall a, O a -> length h0 <= a < length h.
Definition disj (A B : addr -> Prop) : Prop := forall a, A a -> ~ B a.
Definition isolated (h0 h : heap) (ms : list addr) : Prop :=
  pfx h0 h /\ exists Os, Forall2 (owns h0 h) Os ms /\ ForallOrdPairs disj Os.

Lemma owns_pfx h0 h h' O m : pfx h h' -> owns h0 h O m -> owns h0 h' O m.
Proof.
  intros P (A & B & C). split; [exact A|]. split.
  - apply (cl_pfx h); [exact P| |exact B]. intros a Q. apply C in Q. lia.
  - intros a Q. apply C in Q. pose proof (pfx_len _ _ P). lia.
Qed.
Lemma owns_weak h0 h1 h O m : pfx h0 h1 -> owns h1 h O m -> owns h0 h O m.
Proof. intros P (A & B & C). repeat split; auto; apply C in H; pose proof (pfx_len _ _ P); lia. Qed.
Lemma F2_imp {A B} (P Q : A -> B -> Prop) l k : (forall x y, P x y -> Q x y) -> Forall2 P l k -> Forall2 Q l k.
Proof. intros H F. induction F; constructor; auto. Qed.
Lemma isolated_weak h0 h1 h ms : pfx h0 h1 -> isolated h1 h ms -> isolated h0 h ms.
Proof.
  intros P (Q & Os & F & D). split; [eapply pfx_trans; eauto|]. exists Os. split; [|exact D].
  eapply F2_imp; [|exact F]. intros O m. apply owns_weak. exact P.
Qed.

Lemma own_pairs {h0 h : heap} Os ms : Forall2 (owns h0 h) Os ms -> ForallOrdPairs disj Os -> forall m, In m ms ->
  exists O, In O Os /\ owns h0 h O m /\ forall r, In r ms -> r <> m -> exists A, owns h0 h A r /\ disj A O.
Proof.
  intros F. induction F as [|O m Os ms HO F IH]; intros D x Hx; [destruct Hx|].
  inversion D as [|? ? DA DB]; subst. destruct Hx as [<-|Hx].
  - exists O. split; [left; reflexivity|]. split; [exact HO|]. intros r [<-|Hr] NE; [congruence|].
    clear IH DB D. induction F as [|O' m' Os ms HO' F IH]; [destruct Hr|].
    inversion DA; subst. destruct Hr as [<-|Hr].
    + exists O'. split; [exact HO'|]. intros a Q1 Q2. exact (H1 a Q2 Q1).
    + exact (IH H2 Hr).
  - destruct (IH DB x Hx) as (O' & HI & HO' & R). exists O'. split; [right; exact HI|]. split; [exact HO'|].
    intros r [<-|Hr] NE; [|exact (R r Hr NE)]. exists O. split; [exact HO|]. rewrite Forall_forall in DA. exact (DA O' HI).
Qed.

Lemma closed_old h0 h : closed h0 -> pfx h0 h -> cl h (fun a => a < length h0).
Proof. intros C P a o b HA HN HI. rewrite (pfx_back _ _ _ P HA) in HN. exact (C a o b HN HI). Qed.

Lemma isolated_member h0 h ms roots t : closed h0 -> isolated h0 h ms -> In t ms ->
  (forall r, In r roots -> r <> t /\ (In r ms \/ r < length h0)) -> no_effect h roots t.
Proof.
  intros C (P & Os & F & D) HT HR. destruct (own_pairs Os ms F D t HT) as (O & _ & (Om & Oc & Ob) & R).
  apply (separate_no_effect h roots t O Oc Om). intros r Hr. destruct (HR r Hr) as (NE & [HI|HI]).
  - destruct (R r HI NE) as (A & (Am & Ac & _) & DD). exists A. auto.
  - exists (fun a => a < length h0). split; [apply closed_old; assumption|]. split; [exact HI|].
    intros a Q1 Q2. apply Ob in Q2. lia.
Qed.
Lemma isolated_old h0 h ms roots t : closed h0 -> isolated h0 h ms -> t < length h0 ->
  (forall r, In r roots -> In r ms) -> no_effect h roots t.
Proof.
  intros C (P & Os & F & D) HT HR. apply (separate_no_effect h roots t (fun a => a < length h0)).
  - apply closed_old; assumption.
  - exact HT.
  - intros r Hr. destruct (own_pairs Os ms F D r (HR r Hr)) as (O & _ & (Om & Oc & Ob) & _).
    exists O. split; [exact Oc|]. split; [exact Om|]. intros a Q1 Q2. apply Ob in Q1. lia.
Qed.

(* ---- The functions ---- *)
Definition range (lo hi : nat) : addr -> Prop := fun a => lo <= a < hi.

Lemma find_memo (memo : list (addr * addr)) a x : find (fun x => fst x =? a) memo = Some x -> In x memo /\ fst x = a.
Proof. intros H. apply find_some in H. destruct H as [A B]. apply Nat.eqb_eq in B. auto. Qed.

(* copies of instruments are new, have no references beyond themselves and hold what the originals hold *)
Lemma copy_spec l : forall (h : heap) memo h' k lo is, copy_instruments OV IV PV h memo l = (h', k) ->
  Forall2 (fun a i => nth_error h a = Some (OInstr i)) l is -> lo <= length h ->
  (forall x, In x memo -> lo <= snd x < length h /\ nth_error h (snd x) = nth_error h (fst x)) ->
  pfx h h' /\ (forall b, In b k -> lo <= b < length h') /\ (forall a o, length h <= a -> nth_error h' a = Some o -> refs o = []) /\
  Forall2 (fun a i => nth_error h' a = Some (OInstr i)) k is.
Proof.
  induction l as [|a l IH]; intros h memo h' k lo is E F L M; cbn [copy_instruments] in E.
  - injection E as <- <-. inversion F; subst. split; [apply pfx_refl|]. split; [intros b []|]. split; [|constructor].
    intros a o H1 H2. apply nth_some_lt in H2. lia.
  - inversion F as [|? i ? is' H1 H2]; subst. destruct (find (fun x => fst x =? a) memo) as [x|] eqn:FX.
    + apply find_memo in FX. destruct FX as [MX FX].
      destruct (copy_instruments OV IV PV h memo l) as [h1 k1] eqn:E1. injection E as <- <-.
      destruct (IH h memo h1 k1 lo is' E1 H2 L M) as (P & B & R & G). destruct (M x MX) as [M1 M2].
      split; [exact P|]. split; [|split; [exact R|]].
      * intros b [<-|Hb]; [|exact (B b Hb)]. pose proof (pfx_len _ _ P). lia.
      * constructor; [|exact G]. apply (pfx_nth h); [exact P|]. rewrite M2, FX. exact H1.
    + rewrite H1 in E. cbn [alloc] in E.
      destruct (copy_instruments OV IV PV (h ++ [OInstr i]) ((a, length h) :: memo) l) as [h2 k2] eqn:E2. injection E as <- <-.
      destruct (IH (h ++ [OInstr i]) ((a, length h) :: memo) h2 k2 lo is' E2) as (P & B & R & G).
      * eapply F2_imp; [|exact H2]. intros x y. apply nth_ext.
      * rewrite app_length; cbn; lia.
      * intros x [<-|Hx]; cbn [fst snd].
        -- rewrite app_length; cbn. split; [lia|]. rewrite nth_new. symmetry. apply nth_ext. exact H1.
        -- destruct (M x Hx) as [M1 M2]. rewrite app_length; cbn. split; [lia|].
           rewrite (pfx_back h _ (snd x) (pfx_alloc _ _)) by lia. rewrite M2.
           destruct (nth_error h (fst x)) eqn:Q; [symmetry; apply nth_ext; exact Q|].
           exfalso. apply nth_error_None in Q. destruct (nth_error h (snd x)) eqn:Q2; [congruence|]. apply nth_error_None in Q2. lia.
      * split; [eapply pfx_trans; [apply pfx_alloc|exact P]|]. split; [|split].
        -- intros b [<-|Hb]; [|exact (B b Hb)]. pose proof (pfx_len _ _ P). rewrite app_length in H; cbn in H. lia.
        -- intros b o Hb HN. destruct (eq_nat_dec b (length h)) as [->|NE].
           ++ rewrite (pfx_nth _ _ _ _ P (nth_new h (OInstr i))) in HN. injection HN as <-. reflexivity.
           ++ apply (R b o); [rewrite app_length; cbn; lia|exact HN].
        -- constructor; [|exact G]. apply (pfx_nth _ _ _ _ P). apply nth_new.
Qed.

Lemma deepcopy_spec (h : heap) l k is h' l' : nth_error h l = Some (OList k) ->
  Forall2 (fun a i => nth_error h a = Some (OInstr i)) k is -> deepcopy OV IV PV h l = (h', l') ->
  pfx h h' /\ cl h' (range (length h) (length h')) /\ length h <= l' < length h' /\
  exists k', nth_error h' l' = Some (OList k') /\ (forall b, In b k' -> length h <= b < length h') /\
             Forall2 (fun a i => nth_error h' a = Some (OInstr i)) k' is.
Proof.
  intros HL HF E. unfold deepcopy, listed in E. rewrite HL in E.
  destruct (copy_instruments OV IV PV h [] k) as [h1 k1] eqn:E1. cbn [alloc] in E. injection E as <- <-.
  destruct (copy_spec k h [] h1 k1 (length h) is E1 HF (le_n _)) as (P & B & R & G); [intros x []|].
  pose proof (pfx_len _ _ P) as LE.
  split; [eapply pfx_trans; [exact P|apply pfx_alloc]|]. rewrite app_length; cbn [length]. split.
  - intros a o b [A1 A2] HN HI. destruct (eq_nat_dec a (length h1)) as [->|NE].
    + rewrite nth_new in HN. injection HN as <-. cbn in HI. apply B in HI. unfold range. lia.
    + rewrite (pfx_back h1 _ a (pfx_alloc _ _)) in HN by lia. rewrite (R a o A1 HN) in HI. destruct HI.
  - split; [lia|]. exists k1. split; [apply nth_new|]. split; [intros b Hb; apply B in Hb; lia|].
    eapply F2_imp; [|exact G]. intros x y. apply nth_ext.
Qed.

Lemma construct_spec (h : heap) p o l v k is h' s : nth_error h o = Some (OOrbit v) -> nth_error h l = Some (OList k) ->
  Forall2 (fun a i => nth_error h a = Some (OInstr i)) k is -> construct OV IV PV h p o l = (h', s) ->
  pfx h h' /\ length h <= s < length h' /\ sees h' s p v is /\
  (forall a x b, length h <= a < length h' -> nth_error h' a = Some x -> In b (refs x) -> b = o \/ In b k \/ length h <= b < length h').
Proof.
  intros HO HL HF E. unfold construct, listed in E. rewrite HL in E. cbn [alloc] in E. injection E as <- <-.
  assert (P : pfx h ((h ++ [OList k]) ++ [OSys p o (length h)])) by (eapply pfx_trans; apply pfx_alloc).
  split; [exact P|]. rewrite !app_length; cbn [length]. split; [lia|]. split.
  - apply (sees_it _ _ p v is o (length h) k).
    + replace (length h + 1) with (length (h ++ [@OList OV IV PV k])) by (rewrite app_length; cbn; lia). apply nth_new.
    + apply (pfx_nth h); assumption.
    + apply nth_ext. apply nth_new.
    + eapply F2_imp; [|exact HF]. intros x y. apply pfx_nth. exact P.
  - intros a x b HA HN HI. destruct (eq_nat_dec a (length h)) as [->|NE].
    + rewrite (nth_ext _ _ _ _ (nth_new h (OList k))) in HN. injection HN as <-. cbn in HI. auto.
    + assert (a = length (h ++ [@OList OV IV PV k])) as -> by (rewrite app_length; cbn; lia). rewrite nth_new in HN. injection HN as <-.
      cbn in HI. destruct HI as [<-|[<-|[]]]; [auto|]. right; right. lia.
Qed.

Lemma member_spec (h : heap) p v l k is h' m : nth_error h l = Some (OList k) ->
  Forall2 (fun a i => nth_error h a = Some (OInstr i)) k is -> member OV IV PV h p v l = (h', m) ->
  pfx h h' /\ owns h h' (range (length h) (length h')) m /\ sees h' m p v is.
Proof.
  intros HL HF E. unfold member in E. cbn [alloc] in E.
  destruct (deepcopy OV IV PV (h ++ [OOrbit v]) l) as [h2 l2] eqn:E2.
  destruct (deepcopy_spec _ l k is h2 l2 (nth_ext h [OOrbit v] l (OList k) HL)
     (F2_imp _ _ _ _ (fun x y => nth_ext h [OOrbit v] x (OInstr y)) HF) E2) as (P2 & C2 & L2 & k' & K1 & K2 & K3).
  assert (HO : nth_error h2 (length h) = Some (OOrbit v)) by (apply (pfx_nth _ _ _ _ P2); apply nth_new).
  destruct (construct_spec h2 p (length h) l2 v k' is h' m HO K1 K3 E) as (P3 & L3 & S3 & R3).
  pose proof (pfx_len _ _ P2) as LE2. pose proof (pfx_len _ _ P3) as LE3. rewrite app_length in LE2, C2, L2, K2; cbn [length] in LE2, C2, L2, K2.
  assert (P : pfx h h') by (eapply pfx_trans; [apply pfx_alloc|eapply pfx_trans; eassumption]).
  split; [exact P|]. split; [|exact S3]. split; [unfold range; lia|]. split; [|intros a Q; exact Q].
  intros a o b [A1 A2] HN HI. unfold range. destruct (lt_dec a (length h2)) as [Q|Q].
  - rewrite (pfx_back _ _ a P3 Q) in HN. destruct (eq_nat_dec a (length h)) as [->|NE].
    + rewrite HO in HN. injection HN as <-. destruct HI.
    + assert (X : range (length h + 1) (length h2) b) by (apply (C2 a o b); [unfold range; lia|exact HN|exact HI]). unfold range in X. lia.
  - destruct (R3 a o b) as [->|[X|X]]; try assumption; try lia. apply K2 in X. lia.
Qed.

Lemma members_spec specs : forall (h : heap) l k is h' ms, nth_error h l = Some (OList k) ->
  Forall2 (fun a i => nth_error h a = Some (OInstr i)) k is -> members OV IV PV h specs l = (h', ms) ->
  isolated h h' ms /\ Forall2 (fun m x => sees h' m (fst x) (snd x) is) ms specs.
Proof.
  induction specs as [|[p v] specs IH]; intros h l k is h' ms HL HF E; cbn [members] in E.
  - injection E as <- <-. split; [|constructor]. split; [apply pfx_refl|]. exists []. split; constructor.
  - destruct (member OV IV PV h p v l) as [h1 m] eqn:E1. destruct (members OV IV PV h1 specs l) as [h2 ms2] eqn:E2. injection E as <- <-.
    destruct (member_spec h p v l k is h1 m HL HF E1) as (P1 & O1 & S1).
    destruct (IH h1 l k is h2 ms2 (pfx_nth _ _ _ _ P1 HL) (F2_imp _ _ _ _ (fun x y => pfx_nth h h1 x (OInstr y) P1) HF) E2) as ((P2 & Os & F & D) & G).
    split; [|constructor; [eapply sees_pfx; [exact P2|exact S1]|exact G]].
    split; [eapply pfx_trans; eassumption|]. exists (range (length h) (length h1) :: Os). split.
    + constructor; [eapply owns_pfx; eassumption|]. eapply F2_imp; [|exact F]. intros O x. apply owns_weak. exact P1.
    + constructor; [|exact D]. clear -F. induction F as [|O x Os ms (A & B & C) F IH]; constructor; [|exact IH].
      intros a [Q1 Q2] Q3. apply C in Q3. lia.
Qed.

Theorem generate_spec specs_of (h : heap) s p v is h' ms : sees h s p v is -> generate_members OV IV PV specs_of h s = (h', ms) ->
  isolated h h' ms /\ Forall2 (fun m x => sees h' m (fst x) (snd x) is) ms (specs_of p v).
Proof.
  intros [o l k H1 H2 H3 H4] E. unfold generate_members, orbit_at in E. rewrite H1, H2 in E. exact (members_spec _ h l k is h' ms H3 H4 E).
Qed.

(* ---- Mutual orbiting groups ---- *)
Lemma orbits_spec vs : forall (h : heap) h' os, new_orbits OV IV PV h vs = (h', os) ->
  pfx h h' /\ Forall2 (fun o v => nth_error h' o = Some (OOrbit v)) os vs /\ NoDup os /\ (forall o, In o os -> length h <= o < length h').
Proof.
  induction vs as [|v vs IH]; intros h h' os E; cbn [new_orbits] in E.
  - injection E as <- <-. split; [apply pfx_refl|]. split; [constructor|]. split; [constructor|intros o []].
  - cbn [alloc] in E. destruct (new_orbits OV IV PV (h ++ [OOrbit v]) vs) as [h2 os2] eqn:E2. injection E as <- <-.
    destruct (IH _ _ _ E2) as (P & F & N & B). pose proof (pfx_len _ _ P) as LE. rewrite app_length in *; cbn [length] in *.
    split; [eapply pfx_trans; [apply pfx_alloc|exact P]|]. split; [|split].
    + constructor; [|exact F]. apply (pfx_nth _ _ _ _ P). apply nth_new.
    + constructor; [|exact N]. intros Q. apply B in Q. lia.
    + intros o [<-|Q]; [lia|]. apply B in Q. lia.
Qed.

Lemma satellites_spec (h0 : heap) l k is : forall ps os vs (h : heap) h' ms, length ps = length os ->
  nth_error h l = Some (OList k) -> Forall2 (fun a i => nth_error h a = Some (OInstr i)) k is ->
  Forall2 (fun o v => nth_error h o = Some (OOrbit v)) os vs -> NoDup os -> (forall o, In o os -> length h0 <= o < length h) -> length h0 <= length h ->
  satellites OV IV PV h (combine ps os) l = (h', ms) ->
  pfx h h' /\ Forall2 (fun m x => sees h' m (fst x) (snd x) is) ms (combine ps vs) /\
  exists Os, Forall2 (owns h0 h') Os ms /\ ForallOrdPairs disj Os /\ Forall (fun O : addr -> Prop => forall a, O a -> In a os \/ length h <= a) Os.
Proof.
  intros ps os. revert ps. induction os as [|o os IH]; intros ps vs h h' ms LE HL HF HO N B L0 E.
  - destruct ps; [|discriminate]. inversion HO; subst. cbn in E. injection E as <- <-. split; [apply pfx_refl|]. split; [constructor|].
    exists []. repeat split; constructor.
  - destruct ps as [|p ps]; [discriminate|]. inversion HO as [|? v ? vs' O1 O2]; subst. cbn [combine satellites] in E.
    destruct (deepcopy OV IV PV h l) as [h1 l1] eqn:E1. destruct (construct OV IV PV h1 p o l1) as [h2 m] eqn:E2.
    destruct (satellites OV IV PV h2 (combine ps os) l) as [h3 ms3] eqn:E3. injection E as <- <-.
    destruct (deepcopy_spec h l k is h1 l1 HL HF E1) as (P1 & C1 & L1 & k1 & K1 & K2 & K3).
    destruct (construct_spec h1 p o l1 v k1 is h2 m (pfx_nth _ _ _ _ P1 O1) K1 K3 E2) as (P2 & L2 & S2 & R2).
    pose proof (pfx_trans _ _ _ P1 P2) as P12. pose proof (pfx_len _ _ P1) as Q1. pose proof (pfx_len _ _ P2) as Q2.
    inversion N as [|? ? N1 N2]; subst.
    destruct (IH ps vs' h2 h3 ms3) as (P3 & F3 & Os & W1 & W2 & W3).
    + cbn in LE. lia.
    + apply (pfx_nth _ _ _ _ P12 HL).
    + eapply F2_imp; [|exact HF]. intros x y. apply pfx_nth. exact P12.
    + eapply F2_imp; [|exact O2]. intros x y. apply pfx_nth. exact P12.
    + exact N2.
    + intros x Hx. pose proof (B x (or_intror Hx)). lia.
    + lia.
    + exact E3.
    + pose proof (B o (or_introl eq_refl)) as Bo. pose proof (pfx_len _ _ P3) as Q3.
      split; [eapply pfx_trans; eassumption|]. split.
      * cbn [combine]. constructor; [eapply sees_pfx; eassumption|exact F3].
      * exists ((fun a => a = o \/ length h <= a < length h2) :: Os). split; [|split].
        -- constructor; [|exact W1]. apply (owns_pfx h0 h2); [exact P3|]. split; [right; lia|]. split.
           ++ intros a x b HA HN HI. destruct HA as [->|HA].
              ** rewrite (pfx_nth _ _ _ _ P12 O1) in HN. injection HN as <-. destruct HI.
              ** destruct (lt_dec a (length h1)) as [Q|Q].
                 --- rewrite (pfx_back _ _ a P2 Q) in HN.
                     assert (X : range (length h) (length h1) b) by (apply (C1 a x b); [unfold range; lia|exact HN|exact HI]). unfold range in X. right; lia.
                 --- assert (X : b = o \/ In b k1 \/ length h1 <= b < length h2) by (apply (R2 a x b); [lia|exact HN|exact HI]).
                     destruct X as [X|[X|X]]; [left; exact X|apply K2 in X; right; lia|right; lia].
           ++ intros a [->|X]; lia.
        -- constructor; [|exact W2]. eapply Forall_impl; [|exact W3]. intros O HOO a [X|X] Y.
           ++ subst a. destruct (HOO o Y) as [Z|Z]; [exact (N1 Z)|lia].
           ++ destruct (HOO a Y) as [Z|Z]; [pose proof (B a (or_intror Z)); lia|lia].
        -- constructor; [intros a [->|X]; [left; left; reflexivity|right; lia]|].
           eapply Forall_impl; [|exact W3]. intros O HOO a Y. destruct (HOO a Y) as [Z|Z]; [left; right; exact Z|right; lia].
Qed.

Lemma F2_len {A B} (P : A -> B -> Prop) l k : Forall2 P l k -> length l = length k.
Proof. induction 1; cbn; congruence. Qed.
Lemma combine_split_map {A B} (l : list (A * B)) : combine (map fst l) (map snd l) = l.
Proof. induction l as [|[a b] l IH]; cbn; congruence. Qed.

Theorem mog_spec specs_of (h : heap) s p v is h' ms : sees h s p v is -> mog_members OV IV PV specs_of h s = (h', ms) ->
  isolated h h' ms /\ Forall2 (fun m x => sees h' m (fst x) (snd x) is) ms (specs_of p v).
Proof.
  intros [o l k H1 H2 H3 H4] E. unfold mog_members, orbit_at in E. rewrite H1, H2 in E. cbv zeta in E.
  destruct (new_orbits OV IV PV h (map snd (specs_of p v))) as [h1 os] eqn:E1.
  destruct (orbits_spec _ _ _ _ E1) as (P & F & N & B). pose proof (pfx_len _ _ P) as LE.
  destruct (satellites_spec h l k is (map fst (specs_of p v)) os (map snd (specs_of p v)) h1 h' ms) as (P2 & G & Os & W1 & W2 & W3); auto.
  - apply F2_len in F. rewrite map_length in *. congruence.
  - apply (pfx_nth _ _ _ _ P H3).
  - eapply F2_imp; [|exact H4]. intros x y. apply pfx_nth. exact P.
  - rewrite combine_split_map in G. split; [|exact G]. split; [eapply pfx_trans; eassumption|]. exists Os. split; assumption.
Qed.

(* ---- Streets of coverage ---- *)
Lemma walker_spec walker_of (h : heap) s p v is : sees h s p v is ->
  exists h1 w, generate_walker OV IV PV walker_of h s = Some (h1, w) /\ pfx h h1 /\ sees h1 w (walker_of p v) v is /\ length h <= w.
Proof.
  intros [o l k H1 H2 H3 H4]. unfold generate_walker, orbit_at. rewrite H1, H2.
  destruct (construct OV IV PV h (walker_of p v) o l) as [h1 w] eqn:E. exists h1, w. split; [reflexivity|].
  destruct (construct_spec _ _ _ _ v k is h1 w H2 H3 H4 E) as (P & L & S & _). split; [exact P|]. split; [exact S|lia].
Qed.
Theorem soc_spec specs_of walker_of (h : heap) s p v is h' ms : sees h s p v is -> soc_members OV IV PV specs_of walker_of h s = (h', ms) ->
  isolated h h' ms /\ Forall2 (fun m x => sees h' m (fst x) (snd x) is) ms (specs_of (walker_of p v) v).
Proof.
  intros S E. destruct (walker_spec walker_of h s p v is S) as (h1 & w & EW & P & SW & _). unfold soc_members in E. rewrite EW in E.
  destruct (generate_spec specs_of h1 w _ v is h' ms SW E) as [I F]. split; [eapply isolated_weak; eassumption|exact F].
Qed.

(* only the walker object and its list are new *)
Theorem walker_own walker_of (h : heap) s p v is h1 w : sees h s p v is -> generate_walker OV IV PV walker_of h s = Some (h1, w) ->
  exists o l, nth_error h1 w = Some (OSys (walker_of p v) o l) /\ w <> l /\
  forall t p' v' is' h', sees h t p' v' is' -> (forall a, a <> w -> a <> l -> nth_error h' a = nth_error h1 a) -> sees h' t p' v' is'.
Proof.
  intros [o l k H1 H2 H3 H4] E. unfold generate_walker, orbit_at, construct, listed in E. rewrite H1, H2, H3 in E. cbn [alloc] in E. injection E as <- <-.
  exists o, (length h). split; [apply nth_new|]. rewrite app_length; cbn [length]. split; [lia|].
  intros t p' v' is' h' S AG. apply (sees_agree h h' (fun _ => True)) with (2 := Logic.I) (4 := S); [intros ? ? ? ? ? ?; exact Logic.I|].
  intros a x _ HN. pose proof (nth_some_lt _ _ _ HN). rewrite AG by lia. do 2 apply nth_ext. exact HN.
Qed.

Theorem isolated_kept h0 h ms t p v is : isolated h0 h ms -> sees h0 t p v is -> sees h t p v is.
Proof. intros [P _]. apply sees_pfx. exact P. Qed.
Theorem isolated_NoDup h0 h ms : isolated h0 h ms -> NoDup ms /\ (forall m, In m ms -> length h0 <= m).
Proof.
  intros (P & Os & F & D). split.
  - induction F as [|O m Os ms (A & B & C) F IH]; [constructor|]. inversion D as [|? ? DA DB]; subst. constructor; [|exact (IH DB)].
    intros Q. clear -F DA A Q. induction F as [|O' x Os ms (A' & _) F IH]; [destruct Q|]. inversion DA; subst. destruct Q as [->|Q]; [exact (H1 m A A')|exact (IH H2 Q)].
  - intros m Hm. clear D. induction F as [|O x Os ms (A & B & C) F IH]; [destruct Hm|]. destruct Hm as [<-|Hm]; [apply C in A; lia|exact (IH Hm)].
Qed.
Theorem isolated_independent (h h' : heap) ms : closed h -> isolated h h' ms -> independent h h' ms.
Proof.
  intros C I. split; [apply (isolated_NoDup h h' ms I)|]. split; [intros t p v is; apply (isolated_kept h h' ms); exact I|]. split.
  - intros t roots. apply (isolated_member h h' ms); assumption.
  - intros t roots. apply (isolated_old h h' ms); assumption.
Qed.
Theorem generate_full specs_of (h : heap) s p v is h' ms : closed h -> sees h s p v is -> generate_members OV IV PV specs_of h s = (h', ms) ->
  Forall2 (fun m x => sees h' m (fst x) (snd x) is) ms (specs_of p v) /\ independent h h' ms.
Proof. intros C S E. destruct (generate_spec specs_of h s p v is h' ms S E) as [I F]. split; [exact F|apply isolated_independent; assumption]. Qed.
Theorem mog_full specs_of (h : heap) s p v is h' ms : closed h -> sees h s p v is -> mog_members OV IV PV specs_of h s = (h', ms) ->
  Forall2 (fun m x => sees h' m (fst x) (snd x) is) ms (specs_of p v) /\ independent h h' ms.
Proof. intros C S E. destruct (mog_spec specs_of h s p v is h' ms S E) as [I F]. split; [exact F|apply isolated_independent; assumption]. Qed.
Theorem soc_full specs_of walker_of (h : heap) s p v is h' ms : closed h -> sees h s p v is -> soc_members OV IV PV specs_of walker_of h s = (h', ms) ->
  Forall2 (fun m x => sees h' m (fst x) (snd x) is) ms (specs_of (walker_of p v) v) /\ independent h h' ms.
Proof. intros C S E. destruct (soc_spec specs_of walker_of h s p v is h' ms S E) as [I F]. split; [exact F|apply isolated_independent; assumption]. Qed.
End Proofs.

(* ---- Witnesses ---- *)
(* an orbit of altitude 500, an instrument, the list of it twice, the constellation *)
Definition wh : heap nat nat nat := [OOrbit 500; OInstr 1; OList [1; 1]; OSys 7 0 2].
Lemma wh_closed : closed wh.
Proof. intros a o b. do 4 (destruct a as [|a]; [intros E; cbn in E; injection E as <-; cbn; intros H; lia|]). destruct a; discriminate. Qed.
Lemma wh_sees : sees wh 3 7 500 [1; 1].
Proof. apply (sees_it wh 3 7 500 [1; 1] 0 2 [1; 1]); try reflexivity. repeat constructor. Qed.
Definition wspecs (p v : nat) : list (nat * nat) := [(p + 1, v); (p + 2, v + 1)].

(* the walker shares its orbit with the constellation *)
Lemma walker_shared : exists (h : heap nat nat nat) s p v is h1 w h', closed h /\ sees h s p v is /\
  generate_walker nat nat nat (fun p _ => p) h s = Some (h1, w) /\ w <> s /\ edited h1 [w] h' /\ ~ sees h' s p v is.
Proof.
  exists wh, 3, 7, 500, [1; 1], (wh ++ [OList [1; 1]; OSys 7 0 4]), 5, (OOrbit 600 :: tl (wh ++ [OList [1; 1]; OSys 7 0 4])).
  split; [apply wh_closed|]. split; [apply wh_sees|]. split; [reflexivity|]. split; [lia|]. split.
  - unfold edited. apply (edits_change [] (OOrbit 500) (tl (wh ++ [OList [1; 1]; OSys 7 0 4])) _ (OOrbit 600)).
    + exists 5. split; [left; reflexivity|]. eapply reach_step; [reflexivity|cbn; left; reflexivity|apply reach_self].
    + intros b [].
    + apply edits_done.
  - intros [o l k H1 H2 H3 H4]. cbn in H1. injection H1 as <- <-. discriminate.
Qed.
(* as does a satellite with its only member *)
Lemma satellite_shared : exists (h : heap nat nat nat) s p v is h1 m h', closed h /\ sees h s p v is /\
  satellite_members nat nat nat h s = (h1, [m]) /\ edited h1 [m] h' /\ ~ sees h' s p v is.
Proof.
  exists wh, 3, 7, 500, [1; 1], wh, 3, (OOrbit 600 :: tl wh).
  split; [apply wh_closed|]. split; [apply wh_sees|]. split; [reflexivity|]. split.
  - unfold edited. apply (edits_change [] (OOrbit 500) (tl wh) _ (OOrbit 600)).
    + exists 3. split; [left; reflexivity|]. eapply reach_step; [reflexivity|cbn; left; reflexivity|apply reach_self].
    + intros b [].
    + apply edits_done.
  - intros [o l k H1 H2 H3 H4]. cbn in H1. injection H1 as <- <-. discriminate.
Qed.
(* the two members and a change of the instrument of the first: only the first is affected, in both places where it is listed *)
Lemma share_witness : exists h' ms h'', generate_members nat nat nat wspecs wh 3 = (h', ms) /\ ms = [8; 13] /\
  edited h' [8] h'' /\ sees h' 8 8 500 [1; 1] /\ sees h'' 8 8 500 [9; 9] /\ sees h'' 13 9 501 [1; 1] /\ sees h'' 3 7 500 [1; 1].
Proof.
  destruct (generate_members nat nat nat wspecs wh 3) as [h' ms] eqn:E.
  pose proof E as E0. cbv in E. injection E as <- <-.
  match type of E0 with _ = (?h, _) => set (hh := h) in * end.
  exists hh, [8; 13], (firstn 5 hh ++ OInstr 9 :: skipn 6 hh). split; [reflexivity|]. split; [reflexivity|].
  assert (ED : edited hh [8] (firstn 5 hh ++ OInstr 9 :: skipn 6 hh)).
  { unfold edited. apply (edits_change (firstn 5 hh) (OInstr 1) (skipn 6 hh) _ (OInstr 9)).
    - exists 8. split; [left; reflexivity|]. cbn. eapply (reach_step _ 8 7); [reflexivity|cbn; right; left; reflexivity|].
      eapply (reach_step _ 7 5); [reflexivity|cbn; left; reflexivity|apply reach_self].
    - intros b [].
    - apply edits_done. }
  split; [exact ED|].
  destruct (generate_full wspecs wh 3 7 500 [1; 1] hh [8; 13] wh_closed wh_sees E0) as (F & ND & K & M & O).
  inversion F as [|? ? ? ? F1 F2]; subst. inversion F2 as [|? ? ? ? F3 _]; subst. cbn in F1, F3.
  split; [exact F1|]. split; [|split].
  - apply (sees_it _ 8 8 500 [9; 9] 4 7 [5; 5]); try reflexivity. repeat constructor.
  - apply (M 13 [8]); [right; left; reflexivity| |exact ED|exact F3]. intros r [<-|[]]. split; [lia|left; left; reflexivity].
  - apply (O 3 [8]); [cbn; lia| |exact ED|apply K; apply wh_sees]. intros r [<-|[]]. left; reflexivity.
Qed.
