(** Proofs about the place and the element sets of the dilution of precision. *)
From Coq Require Import Reals ZArith List Bool Lia Lra.
From Verif Require Import Base BaseFacts RBase Dop_Model Dop_Spec Dop_Proofs Dop_Proofs3 Epoch_Spec Dopat_Model Dopat_Spec.
Import ListNotations.
Open Scope R_scope.

Section P.
Variables (Line Orbit : Type) (to_tle : Orbit -> pyres (list Line)) (altaz : Line * Line -> place -> Z -> sight) (solve : mat4 -> option mat4).
Local Notation dop_at := (dop_at Line Orbit to_tle altaz solve).
Lemma lines_ok o e : dop_lines Line Orbit to_tle o = Ok e -> exists r, to_tle o = Ok (fst e :: snd e :: r).
Proof.
  unfold dop_lines. destruct (to_tle o) as [[|a [|b r]]|]; cbn; try discriminate. intros [= <-]. now exists r.
Qed.
Lemma lines_some o a b r : to_tle o = Ok (a :: b :: r) -> dop_lines Line Orbit to_tle o = Ok (a, b).
Proof. unfold dop_lines. intros ->. reflexivity. Qed.
Lemma sets_forall2 sats es : mapM (dop_lines Line Orbit to_tle) sats = Ok es -> Forall2 (fun o e => dop_lines Line Orbit to_tle o = Ok e) sats es.
Proof.
  revert es. induction sats as [|o sats IH]; intros es; cbn; [intros [= <-]; constructor|].
  destruct (dop_lines Line Orbit to_tle o) as [e|] eqn:E; [|discriminate]. cbn. destruct (mapM _ sats) as [l|]; [|discriminate]. cbn. intros [= <-].
  constructor; [exact E|now apply IH].
Qed.
(* at the datum, while the first element set of each satellite is the nearest *)
Theorem true_lemma epoch times p sats me m mn rows : pl_elevation p = 0 ->
  (forall o lines t, In o sats -> In t times -> to_tle o = Ok lines -> nearest (map epoch (element_sets lines)) t 0) ->
  dop_at times p sats me m mn = Ok rows -> Forall2 (fun t r => d_time r = t /\ true_row to_tle epoch altaz solve p sats me m mn r) times rows.
Proof.
  intros E0 L. unfold dop_at. destruct (mapM (dop_lines Line Orbit to_tle) sats) as [es|] eqn:M; [|discriminate]. cbn [bind]. intro C.
  apply dop_rows_lemma in C. apply sets_forall2 in M. assert (P : sk_position p = p) by (destruct p; cbn in *; now rewrite E0). rewrite P in C.
  clear P. induction C as [|t r times rows (T & _ & D) C IH]; constructor; [|apply IH; intros o l t' I J; apply L; [exact I|now right]]. split; [exact T|].
  exists (map (fun e => altaz e p t) es). split; [|exact D]. rewrite T. clear - M L.
  induction M as [|o e sats es E M IH]; constructor; [|apply IH; intros o' l' t' I; apply L; now right].
  destruct (lines_ok o e E) as (r & R). exists (fst e :: snd e :: r). split; [exact R|]. pose proof (L o _ t (or_introl eq_refl) (or_introl eq_refl) R) as K.
  exists 0%nat, e. split; [cbn; now destruct e|]. split; [exact K|reflexivity].
Qed.
(* the elevation of the point makes no difference *)
Theorem elevation_ignored times p q sats me m mn : pl_latitude p = pl_latitude q -> pl_longitude p = pl_longitude q ->
  dop_at times p sats me m mn = dop_at times q sats me m mn.
Proof. intros A B. unfold dop_at, sk_position. now rewrite A, B. Qed.
(* nor do lines after the first two *)
Theorem later_ignored to_tle' times p sats me m mn :
  (forall o, In o sats -> exists a b r r', to_tle o = Ok (a :: b :: r) /\ to_tle' o = Ok (a :: b :: r')) ->
  dop_at times p sats me m mn = Dopat_Model.dop_at Line Orbit to_tle' altaz solve times p sats me m mn.
Proof.
  intro H. unfold dop_at, Dopat_Model.dop_at. replace (mapM (dop_lines Line Orbit to_tle') sats) with (mapM (dop_lines Line Orbit to_tle) sats); [reflexivity|].
  induction sats as [|o sats IH]; [reflexivity|]. cbn. rewrite IH by (intros o' I; apply H; now right).
  destruct (H o (or_introl eq_refl)) as (a & b & r & r' & E & E'). unfold dop_lines. now rewrite E, E'.
Qed.
(* an answer for every valid orbit *)
Theorem answer_lemma times p sats me m mn : sats <> [] -> m <> Invalid ->
  (forall o, In o sats -> exists lines, to_tle o = Ok lines /\ (2 <= length lines)%nat) -> exists rows, dop_at times p sats me m mn = Ok rows.
Proof.
  intros N I H. unfold dop_at. assert (M : exists es, mapM (dop_lines Line Orbit to_tle) sats = Ok es /\ length es = length sats).
  { clear N. induction sats as [|o sats IH]; [now exists []|]. destruct (H o (or_introl eq_refl)) as (l & T & L). destruct l as [|a [|b l]]; cbn in L; try lia.
    destruct IH as (es & E & K); [intros o' J; apply H; now right|]. exists ((a, b) :: es). cbn. rewrite (lines_some o a b l T), E. cbn. now rewrite K. }
  destruct M as (es & -> & K). cbn [bind]. apply dop_total_lemma; [|exact I]. destruct es; [destruct sats; [now destruct N|discriminate]|discriminate].
Qed.
End P.

(* the four satellites of a sky with a position, and one below the horizon *)
Definition in_sky (k : nat) : sight := nth k four_sky (mk_sight (-1) 0 1).
Definition low : sight := mk_sight (-1) 0 1.
Lemma low_dop solve m mn n : m <> Invalid -> (0 <= mn)%Z -> dop solve 0 m mn (repeat low n) = Ok None.
Proof.
  intros _ MN. unfold dop. replace (filter (visible 0) (repeat low n)) with (@nil sight).
  - cbn. destruct (Z.leb_spec 0 mn); [reflexivity|lia].
  - induction n as [|n IH]; [reflexivity|]. cbn. unfold visible at 1. cbn. unfold radians, Rleb. destruct (Rle_dec _ _) as [B|B]; [exfalso; lra|exact IH].
Qed.
Definition four : list nat := [0; 1; 2; 3]%nat.
Lemma four_all : map in_sky four = four_sky. Proof. reflexivity. Qed.
Definition same_lines (o : nat) : pyres (list nat) := Ok [o; o].
Definition up_high (l : nat * nat) (p : place) (t : Z) : sight := if Rle_dec (pl_elevation p) 0 then in_sky (fst l) else low.
Lemma all_low {A B} (f : A -> B -> Prop) (P : B -> Prop) l k : Forall2 f l k -> (forall a b, f a b -> P b) -> Forall P k.
Proof. induction 1; intro H1; constructor; eauto. Qed.
Lemma both {A B} (f : A -> B -> Prop) (Q : A -> Prop) l k : Forall Q l -> Forall2 f l k -> Forall2 (fun a b => Q a /\ f a b) l k.
Proof. intros H F. induction F; inversion H; subst; constructor; auto. Qed.
Lemma lows k : Forall (fun s => s = low) k -> k = repeat low (length k).
Proof. induction 1 as [|s k -> _ IH]; [reflexivity|]. cbn. now rewrite <- IH. Qed.
Theorem elevation_wrong : exists to_tle altaz solve epoch times p sats me m mn rows r, solver solve /\ (forall o : nat, exists a b : nat, to_tle o = Ok [a; b]) /\
  dop_at nat nat to_tle altaz solve times p sats me m mn = Ok rows /\ In r rows /\ d_dop r = Some 2
  /\ ~ true_row to_tle epoch altaz solve p sats me m mn r.
Proof.
  exists same_lines, up_high, cramer, (fun _ => 0%Z), [7%Z], (mk_place 28 87 8849), four, 0, GDOP, 3%Z.
  exists [mk_dop_row 7 (Some 2) (28, 87)], (mk_dop_row 7 (Some 2) (28, 87)). split; [exact cramer_solver|]. split; [intro o; now exists o, o|].
  split; [|split; [now left|split; [reflexivity|]]].
  - unfold dop_at, compute_dop. cbn [mapM bind dop_lines same_lines line_at nth_error four length Nat.eqb pl_latitude pl_longitude map].
    replace (up_high (0%nat, 0%nat) _ _ :: _) with four_sky.
    + rewrite (four_gdop cramer cramer_solver 3 ltac:(lia)). reflexivity.
    + unfold up_high, sk_position. cbn [pl_elevation fst]. destruct (Rle_dec 0 0); [reflexivity|lra].
  - intros (sights & F & D). assert (K : Forall (fun s => s = low) sights).
    { apply (all_low _ _ _ _ F). intros o s (lines & _ & k & e & _ & _ & ->). unfold up_high. cbn [pl_elevation]. destruct (Rle_dec 8849 0); [lra|reflexivity]. }
    rewrite (lows sights K), (low_dop cramer GDOP 3) in D; [discriminate|discriminate|lia].
Qed.
Definition two_sets (o : nat) : pyres (list nat) := Ok [o; o; (o + 4)%nat; (o + 4)%nat].
Definition moved (l : nat * nat) (p : place) (t : Z) : sight := in_sky (fst l).
Definition day (l : nat * nat) : Z := if Nat.ltb (fst l) 4 then 0%Z else 100%Z.
Theorem later_wrong : exists to_tle altaz solve epoch times p sats me m mn rows r, solver solve /\ pl_elevation p = 0 /\
  (forall o : nat, exists a b c d : nat, to_tle o = Ok [a; b; c; d]) /\
  dop_at nat nat to_tle altaz solve times p sats me m mn = Ok rows /\ In r rows /\ d_dop r = Some 2
  /\ ~ true_row to_tle epoch altaz solve p sats me m mn r.
Proof.
  exists two_sets, moved, cramer, day, [100%Z], (mk_place 28 87 0), four, 0, GDOP, 3%Z.
  exists [mk_dop_row 100 (Some 2) (28, 87)], (mk_dop_row 100 (Some 2) (28, 87)). split; [exact cramer_solver|]. split; [reflexivity|].
  split; [intro o; unfold two_sets; eauto 6|].
  split; [|split; [now left|split; [reflexivity|]]].
  - unfold dop_at, compute_dop. cbn [mapM bind dop_lines two_sets line_at nth_error four length Nat.eqb pl_latitude pl_longitude map].
    change (moved (0%nat, 0%nat) _ _ :: _) with four_sky. rewrite (four_gdop cramer cramer_solver 3 ltac:(lia)). reflexivity.
  - intros (sights & F & D). assert (K : Forall (fun s => s = low) sights).
    { assert (G : Forall2 (fun o s => (o < 4)%nat /\ exists lines, two_sets o = Ok lines /\ truly_seen day moved (mk_place 28 87 0) 100 lines s) four sights).
      { apply both; [|exact F]. unfold four. repeat constructor. }
      apply (all_low _ _ _ _ G). intros o s (O & lines & T & k & e & N & (e0 & N0 & NE) & ->). unfold two_sets in T. injection T as <-.
      cbn [element_sets] in *. assert (D1 : day (o, o) = 0%Z) by (unfold day; cbn [fst]; now rewrite (proj2 (Nat.ltb_lt o 4) O)).
      assert (D2 : day ((o + 4)%nat, (o + 4)%nat) = 100%Z) by (unfold day; cbn [fst]; destruct (Nat.ltb_spec (o + 4) 4); [lia|reflexivity]).
      cbn [map] in *. rewrite D1, D2 in *. destruct k as [|[|k]]; cbn in N, N0.
      - injection N0 as <-. exfalso. destruct (NE 100%Z) as (B & _); [cbn; tauto|]. lia.
      - injection N as <-. unfold moved, in_sky. cbn [fst]. apply nth_overflow. cbn. lia.
      - destruct k; discriminate. }
    rewrite (lows sights K), (low_dop cramer GDOP 3) in D; [discriminate|discriminate|lia].
Qed.

Lemma true_witness : forall o lines t, In o four -> In t [10; 40]%Z -> two_sets o = Ok lines -> nearest (map day (element_sets lines)) t 0.
Proof.
  intros o lines t I T [= <-]. cbn [element_sets map]. assert (D1 : day (o, o) = 0%Z) by (unfold four in I; cbn in I; unfold day; cbn [fst]; destruct (Nat.ltb_spec o 4); [reflexivity|lia]).
  assert (D2 : day ((o + 4)%nat, (o + 4)%nat) = 100%Z) by (unfold day; cbn [fst]; destruct (Nat.ltb_spec (o + 4) 4); [lia|reflexivity]).
  rewrite D1, D2. exists 0%Z. split; [reflexivity|]. intros e' [<-|[<-|[]]]; cbn in T; lia.
Qed.
