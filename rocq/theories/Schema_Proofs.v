(** Proofs about the schemas. *)
From Coq Require Import String List Bool Arith Lia.
From Verif Require Import Schema_Model Schema_Spec.
Import ListNotations.
Open Scope string_scope.

Section Ind.
Variable atom : Type.
Variable P : pv atom -> Prop.
Hypothesis PA : forall a, P (PAtom a).
Hypothesis PS : forall s, P (PStr s).
Hypothesis PL : forall l, Forall P l -> P (PList l).
Hypothesis PD : forall l, Forall (fun e => P (snd e)) l -> P (PDict l).
Hypothesis PI : forall c l, Forall (fun e => P (snd e)) l -> P (PInst c l).
Fixpoint pv_rect' (v : pv atom) : P v :=
  match v with
  | PAtom a => PA a
  | PStr s => PS s
  | PList l => PL l ((fix go l := match l return Forall P l with [] => Forall_nil _ | x :: r => Forall_cons _ (pv_rect' x) (go r) end) l)
  | PDict l => PD l ((fix go l := match l return Forall (fun e => P (snd e)) l with [] => Forall_nil _ | x :: r => Forall_cons _ (pv_rect' (snd x)) (go r) end) l)
  | PInst c l => PI c l ((fix go l := match l return Forall (fun e => P (snd e)) l with [] => Forall_nil _ | x :: r => Forall_cons _ (pv_rect' (snd x)) (go r) end) l)
  end.
End Ind.

Lemma cls_eqb_spec c d : cls_eqb c d = true <-> c = d.
Proof. unfold cls_eqb. destruct (cls_eq_dec c d); split; congruence. Qed.
Lemma isinstance_refl c : isinstance c c = true.
Proof. now destruct c. Qed.
Lemma names_nodup c : NoDup (map d_name (fields c)).
Proof. destruct c; cbn; repeat constructor; cbn; intuition discriminate. Qed.

Lemma find_map {A B} (h : A -> B) n l : find n (map (fun e => (fst e, h (snd e))) l) = option_map h (find n l).
Proof. induction l as [|[k a] r IH]; [reflexivity|]. cbn. rewrite IH. destruct (find n r); [reflexivity|]. cbn. now destruct (k =? n). Qed.
Lemma find_In {A} n (l : list (string * A)) a : find n l = Some a -> In (n, a) l.
Proof.
  induction l as [|[k b] r IH]; cbn; [discriminate|]. destruct (find n r); intro H; [right; apply IH; congruence|].
  destruct (k =? n) eqn:E; [|discriminate]. apply String.eqb_eq in E. left. congruence.
Qed.
Lemma find_none {A} n (l : list (string * A)) : find n l = None <-> ~ In n (map fst l).
Proof.
  induction l as [|[k b] r IH]; cbn; [intuition|]. destruct (find n r) eqn:E.
  - split; [discriminate|]. intro H. exfalso. apply H. right. apply find_In in E. apply in_map_iff. now exists (n, a).
  - destruct (k =? n) eqn:K.
    + apply String.eqb_eq in K. split; [discriminate|]. intro H. exfalso. apply H. now left.
    + apply String.eqb_neq in K. split; [|reflexivity]. intros _ [H|H]; [now apply K|]. now apply IH in H.
Qed.
Lemma find_unique {A} n (l : list (string * A)) a : NoDup (map fst l) -> In (n, a) l -> find n l = Some a.
Proof.
  induction l as [|[k b] r IH]; cbn; [intros _ []|]. intros N [H|H]; inversion N; subst.
  - injection H as -> ->. destruct (find n r) eqn:E; [|now rewrite String.eqb_refl].
    apply find_In in E. exfalso. apply H2. apply in_map_iff. now exists (n, a0).
  - now rewrite IH.
Qed.
Lemma all_some {A} (l : list (option A)) r : all l = Some r <-> l = map Some r.
Proof.
  revert r. induction l as [|[a|] l IH]; intros r; cbn.
  - destruct r; cbn; split; congruence.
  - destruct (all l) as [q|] eqn:E.
    + destruct r as [|b r]; cbn; [split; discriminate|]. specialize (IH r). split; intro H.
      * injection H as -> ->. f_equal. now apply IH.
      * injection H as -> H. apply IH in H. congruence.
    + split; [discriminate|]. intro H. destruct r as [|b r]; [discriminate|]. cbn in H. injection H as -> H. apply IH in H. discriminate.
  - split; [discriminate|]. destruct r; discriminate.
Qed.
Lemma all_In {A B} (g : A -> option B) l r : all (map g l) = Some r -> Forall2 (fun a b => g a = Some b) l r.
Proof. intro H. apply all_some in H. revert r H. induction l as [|a l IH]; intros [|b r] H; try discriminate; constructor; injection H as H1 H2; auto. Qed.
Lemma all_of {A B} (g : A -> option B) l r : Forall2 (fun a b => g a = Some b) l r -> all (map g l) = Some r.
Proof. intro H. apply all_some. induction H; cbn; congruence. Qed.

(** The discriminators. *)
Lemma tag_field c s : type_name c = Some s -> In (tag s) (fields c).
Proof. destruct c; cbn; intro H; try discriminate H; injection H as <-; intuition. Qed.
Lemma tag_type c s d : type_name c = Some s -> In d (fields c) -> d_name d = "type" -> d = tag s.
Proof. destruct c; cbn; intro H; try discriminate H; injection H as <-; intros I N; repeat (destruct I as [<-|I]; [first [discriminate N|reflexivity]|]); destruct I. Qed.
Lemma type_name_inj c d s : type_name c = Some s -> type_name d = Some s -> c = d.
Proof. destruct c, d; cbn; congruence. Qed.
(** Unions in annotations have distinct alternatives with discriminators. *)
Definition fair (cs : list cls) : Prop := NoDup cs /\ forall c, In c cs -> type_name c <> None.
Fixpoint fair_type (t : ftype) : Prop := match t with FUnion cs => fair cs | FList t _ => fair_type t | _ => True end.
Lemma fields_fair c d : In d (fields c) -> fair_type (d_type d).
Proof.
  assert (F1 : fair orbit_union) by (split; [repeat constructor; cbn; intuition discriminate|cbn; intros x H; repeat (destruct H as [<-|H]; [discriminate|]); destruct H]).
  assert (F2 : fair [Satellite; Train; Walker; Mog]) by (split; [repeat constructor; cbn; intuition discriminate|cbn; intros x H; repeat (destruct H as [<-|H]; [discriminate|]); destruct H]).
  destruct c; cbn [fields circular_fields molniya_fields base_fields instrument_fields satellite_fields app]; intro I;
    repeat (destruct I as [<-|I]; [first [exact Logic.I|exact F1|exact F2]|]); destruct I.
Qed.
(** Kinds of types. *)
Inductive kind := KLit | KScalar (f : string) | KInst | KList (k : kind).
Fixpoint kind_of (t : ftype) : kind := match t with FLit _ => KLit | FScalar f => KScalar f | FModel _ | FUnion _ => KInst | FList t _ => KList (kind_of t) end.
Lemma inherited c d x : isinstance d c = true -> In x (fields c) -> exists y, In y (fields d) /\ d_name y = d_name x /\ kind_of (d_type y) = kind_of (d_type x).
Proof.
  intros I H. assert (D : d = c \/ In c (bases d)).
  { unfold isinstance in I. apply orb_true_iff in I. destruct I as [I|I]; [left; now apply cls_eqb_spec|]. right. apply existsb_exists in I. destruct I as (q & Q & E). apply cls_eqb_spec in E. now subst. }
  destruct D as [-> | D]; [now exists x|].
  destruct d; cbn in D; try (destruct D; fail); destruct D as [<-|[]]; cbn [fields circular_fields molniya_fields base_fields instrument_fields satellite_fields app] in *;
    repeat (destruct H as [<-|H]; [match goal with |- exists y, In y ?l /\ d_name y = ?n /\ _ =>
       let rec go l := match l with ?z :: ?r => first [exists z; split; [cbn; tauto|]; split; reflexivity | go r] end in go l end|]); destruct H.
Qed.
Lemma default_types c d : In d (fields c) -> d_dflt d = Default ->
  match d_type d with FLit _ | FScalar _ => True | FList _ 0 => True | t => t = FList (FModel Instrument) 1 end.
Proof.
  destruct c; cbn [fields circular_fields molniya_fields base_fields instrument_fields satellite_fields app]; intros I D;
    repeat (destruct I as [<-|I]; [first [discriminate D|exact Logic.I|reflexivity]|]); destruct I.
Qed.
Lemma instrument_types d : In d instrument_fields -> d_type d = FScalar (d_name d).
Proof. cbn. intro I. repeat (destruct I as [<-|I]; [reflexivity|]). destruct I. Qed.
