(** Proofs about compute_dop. *)
From Coq Require Import Reals ZArith List Bool Lra Lia Sorting.Permutation.
From Verif Require Import Base BaseFacts RBase RFacts RTrigFacts Geom_Model Dop_Model Dop_Spec Dop_Proofs.
Import ListNotations.
Open Scope R_scope.

Lemma visible_iff me s : visible me s = true <-> in_view me s.
Proof. unfold visible, in_view. apply Rleb_spec. Qed.
Lemma seen_filter me all l : seen_of me all l -> filter (visible me) all = l.
Proof.
  induction 1 as [|s all l V S IH|s all l V S IH]; cbn; [reflexivity| |].
  - rewrite (proj2 (visible_iff me s) V). now rewrite IH.
  - destruct (visible me s) eqn:E; [apply visible_iff in E; contradiction|exact IH].
Qed.
Lemma filter_seen me all : seen_of me all (filter (visible me) all).
Proof.
  induction all as [|s all IH]; cbn; [constructor|]. destruct (visible me s) eqn:E; constructor; try exact IH; [now apply visible_iff|].
  intro V. apply visible_iff in V. congruence.
Qed.
Lemma h_row_ok s : s_r s <> 0 -> exists h, h_row s = Some h /\ forall k, h k = direction s k.
Proof.
  intro N. unfold h_row, rdiv. destruct (Req_EM_T (s_r s) 0) as [E|_]; [contradiction|]. cbn. eexists. split; [reflexivity|].
  intros [|[|[|k]]]; cbn; [field; exact N|field; exact N|field; exact N|reflexivity].
Qed.
Lemma h_rows_ok l : apart l -> exists rows, h_rows l = Some rows /\ forall i j, gram rows i j = normal l i j.
Proof.
  induction l as [|s l IH]; intro A; [exists []; split; reflexivity|]. destruct IH as (rows & E & G); [intros x X; apply A; now right|].
  destruct (h_row_ok s) as (h & Eh & Gh); [apply A; now left|]. exists (h :: rows). cbn. rewrite Eh. cbn. rewrite E. cbn. split; [reflexivity|].
  intros i j. unfold gram, normal in *. cbn. rewrite G, !Gh. reflexivity.
Qed.
Lemma np_sqrt_ok x : 0 <= x -> np_sqrt x = Some (sqrt x).
Proof. intro H. unfold np_sqrt. now rewrite (proj2 (Rleb_spec 0 x) H). Qed.
Lemma part_pos l X m : inverse (normal l) X -> m <> Invalid -> 0 < part m X.
Proof.
  intros H N. pose proof (diag_pos l X 0 H ltac:(lia)). pose proof (diag_pos l X 1 H ltac:(lia)). pose proof (diag_pos l X 2 H ltac:(lia)). pose proof (diag_pos l X 3 H ltac:(lia)).
  destruct m; cbn; try lra. contradiction.
Qed.
Lemma part_unique l X Y m : inverse (normal l) X -> inverse (normal l) Y -> part m X = part m Y.
Proof.
  intros H K. assert (U := inverse_unique _ X Y (normal_symm l) H K). destruct m; cbn; rewrite ?(U 0%nat 0%nat), ?(U 1%nat 1%nat), ?(U 2%nat 2%nat), ?(U 3%nat 3%nat) by lia; reflexivity.
Qed.
Section D.
Variable solve : mat4 -> option mat4.
Hypothesis SOLVE : solver solve.
Lemma dop_few me m mn all l : seen_of me all l -> (Z.of_nat (length l) <= mn)%Z -> dop solve me m mn all = Ok None.
Proof. intros S L. unfold dop. rewrite (seen_filter _ _ _ S). now rewrite (proj2 (Z.leb_le _ _) L). Qed.
Lemma dop_singular me m mn all l : seen_of me all l -> apart l -> (forall X, ~ inverse (normal l) X) -> dop solve me m mn all = Ok None.
Proof.
  intros S A N. unfold dop. rewrite (seen_filter _ _ _ S). destruct (_ <=? _)%Z; [reflexivity|]. destruct (h_rows_ok l A) as (rows & E & G). rewrite E.
  pose proof (SOLVE (gram rows)) as C. destruct (solve (gram rows)) as [X|]; [|reflexivity]. exfalso. apply (N X). now apply (inverse_ext (gram rows)).
Qed.
Lemma dop_value me m mn all l X : seen_of me all l -> apart l -> (mn < Z.of_nat (length l))%Z -> inverse (normal l) X -> m <> Invalid ->
  dop solve me m mn all = Ok (Some (sqrt (part m X))).
Proof.
  intros S A L H N. unfold dop. rewrite (seen_filter _ _ _ S). rewrite (proj2 (Z.leb_gt _ _) L). destruct (h_rows_ok l A) as (rows & E & G). rewrite E.
  pose proof (SOLVE (gram rows)) as C. destruct (solve (gram rows)) as [Y|].
  - assert (HY : inverse (normal l) Y) by (now apply (inverse_ext (gram rows))). rewrite (part_unique l X Y m H HY). pose proof (part_pos l Y m HY N) as P.
    destruct m; cbn in *; unfold diag; rewrite ?np_sqrt_ok by lra; try reflexivity. contradiction.
  - exfalso. apply (C X). apply (inverse_ext (normal l)); [intros; symmetry; apply G|exact H].
Qed.
Lemma dop_invalid me mn all l X : seen_of me all l -> apart l -> (mn < Z.of_nat (length l))%Z -> inverse (normal l) X ->
  dop solve me Invalid mn all = Raise ValueError.
Proof.
  intros S A L H. unfold dop. rewrite (seen_filter _ _ _ S). rewrite (proj2 (Z.leb_gt _ _) L). destruct (h_rows_ok l A) as (rows & E & G). rewrite E.
  pose proof (SOLVE (gram rows)) as C. destruct (solve (gram rows)) as [Y|]; [reflexivity|].
  exfalso. apply (C X). apply (inverse_ext (normal l)); [intros; symmetry; apply G|exact H].
Qed.
Lemma invertible_dec l : apart l -> (exists X, inverse (normal l) X) \/ forall X, ~ inverse (normal l) X.
Proof.
  intro A. destruct (h_rows_ok l A) as (rows & E & G). pose proof (SOLVE (gram rows)) as C. destruct (solve (gram rows)) as [Y|].
  - left. exists Y. now apply (inverse_ext (gram rows)).
  - right. intros X H. apply (C X). apply (inverse_ext (normal l)); [intros; symmetry; apply G|exact H].
Qed.
(** The general law of one call. *)
Lemma dop_some me m mn all l d : seen_of me all l -> apart l -> dop solve me m mn all = Ok (Some d) ->
  exists X, inverse (normal l) X /\ m <> Invalid /\ (mn < Z.of_nat (length l))%Z /\ d = sqrt (part m X).
Proof.
  intros S A E. destruct (Z_lt_le_dec mn (Z.of_nat (length l))) as [L|L]; [|rewrite (dop_few _ _ _ _ _ S L) in E; discriminate].
  destruct (invertible_dec l A) as [[X H]|N]; [|rewrite (dop_singular _ _ _ _ _ S A N) in E; discriminate].
  assert (NI : m <> Invalid) by (intros ->; rewrite (dop_invalid _ _ _ _ _ S A L H) in E; discriminate).
  exists X. repeat split; try assumption. rewrite (dop_value _ _ _ _ _ _ S A L H NI) in E. congruence.
Qed.
Lemma dop_defined_iff : forall me m mn all l, seen_of me all l -> apart l -> m <> Invalid ->
  ((exists d, dop solve me m mn all = Ok (Some d)) <-> (mn < Z.of_nat (length l))%Z /\ exists X, inverse (normal l) X).
Proof.
  intros me m mn all l S A N. split.
  - intros [d E]. destruct (dop_some _ _ _ _ _ _ S A E) as (X & H & _ & L & _). eauto.
  - intros [L [X H]]. eexists. exact (dop_value _ _ _ _ _ _ S A L H N).
Qed.
Lemma dop_undefined : forall me m mn all l, seen_of me all l -> apart l -> m <> Invalid ->
  (Z.of_nat (length l) <= mn)%Z \/ (forall X, ~ inverse (normal l) X) -> dop solve me m mn all = Ok None.
Proof. intros me m mn all l S A N [L|L]; [now apply (dop_few me m mn all l)|now apply (dop_singular me m mn all l)]. Qed.
Lemma dop_identities : forall me mn all l g, seen_of me all l -> apart l -> dop solve me GDOP mn all = Ok (Some g) ->
  exists p h v t, dop solve me PDOP mn all = Ok (Some p) /\ dop solve me HDOP mn all = Ok (Some h) /\ dop solve me VDOP mn all = Ok (Some v)
    /\ dop solve me TDOP mn all = Ok (Some t) /\ 0 < p /\ 0 < h /\ 0 < v /\ 0 < t /\ 0 < g
    /\ g ^ 2 = p ^ 2 + t ^ 2 /\ p ^ 2 = h ^ 2 + v ^ 2.
Proof.
  intros me mn all l g S A E. destruct (dop_some _ _ _ _ _ _ S A E) as (X & H & _ & L & ->).
  exists (sqrt (part PDOP X)), (sqrt (part HDOP X)), (sqrt (part VDOP X)), (sqrt (part TDOP X)).
  assert (PP : forall m, m <> Invalid -> 0 < part m X) by (intros; now apply (part_pos l)).
  repeat (split; [apply (dop_value me _ mn all l X S A L H); discriminate|]). repeat (split; [apply sqrt_lt_R0; apply PP; discriminate|]).
  rewrite !pow2_sqrt by (apply Rlt_le, PP; discriminate). cbn. split; lra.
Qed.
Lemma dop_perm : forall me m mn all all', Permutation all all' -> apart all -> dop solve me m mn all = dop solve me m mn all'.
Proof.
  intros me m mn all all' P A. pose proof (filter_seen me all) as S. pose proof (filter_seen me all') as S'. set (l := filter (visible me) all) in *. set (l' := filter (visible me) all') in *.
  assert (PL : Permutation l l') by (unfold l, l'; apply filter_perm, P).
  assert (AL : apart l) by (intros s I; apply A; apply filter_In in I; tauto). assert (AL' : apart l') by (intros s I; apply AL; now apply (Permutation_in _ (Permutation_sym PL))).
  destruct (Z_lt_le_dec mn (Z.of_nat (length l))) as [L|L].
  - assert (L' : (mn < Z.of_nat (length l'))%Z) by (now rewrite <- (Permutation_length PL)). destruct (invertible_dec l AL) as [[X H]|N].
    + assert (H' : inverse (normal l') X) by (apply (inverse_ext (normal l)); [intros; now apply normal_perm|exact H]).
      assert (DM : m = Invalid \/ m <> Invalid) by (destruct m; auto; right; discriminate). destruct DM as [->|NI].
      * now rewrite (dop_invalid _ _ _ _ _ S AL L H), (dop_invalid _ _ _ _ _ S' AL' L' H').
      * now rewrite (dop_value _ _ _ _ _ _ S AL L H NI), (dop_value _ _ _ _ _ _ S' AL' L' H' NI).
    + rewrite (dop_singular _ _ _ _ _ S AL N). symmetry. apply (dop_singular me m mn all' l' S' AL'). intros X H. apply (N X). apply (inverse_ext (normal l')); [|exact H].
      intros. apply normal_perm. now apply Permutation_sym.
  - rewrite (dop_few _ _ _ _ _ S L). symmetry. apply (dop_few _ _ _ _ _ S'). now rewrite <- (Permutation_length PL).
Qed.
Lemma dop_more : forall me m mn all s d, apart (s :: all) -> in_view me s -> dop solve me m mn all = Ok (Some d) ->
  exists d', dop solve me m mn (s :: all) = Ok (Some d') /\ d' <= d.
Proof.
  intros me m mn all s d A V E. pose proof (filter_seen me all) as S. set (l := filter (visible me) all) in *.
  assert (AL : apart l) by (intros x I; apply A; right; apply filter_In in I; tauto).
  destruct (dop_some _ _ _ _ _ _ S AL E) as (X & H & NI & L & ->). destruct (inverse_add l s X H) as [Y HY].
  assert (S2 : seen_of me (s :: all) (s :: l)) by (now constructor). assert (A2 : apart (s :: l)) by (intros x [<-|I]; [apply A; now left|now apply AL]).
  exists (sqrt (part m Y)). split; [apply (dop_value me m mn (s :: all) (s :: l) Y S2 A2); [cbn [length]; lia|exact HY|exact NI]|].
  pose proof (part_pos _ Y m HY NI). pose proof (part_pos _ X m H NI). apply sqrt_le_1; [lra|lra|].
  pose proof (diag_add l s X Y 0 H HY ltac:(lia)). pose proof (diag_add l s X Y 1 H HY ltac:(lia)). pose proof (diag_add l s X Y 2 H HY ltac:(lia)). pose proof (diag_add l s X Y 3 H HY ltac:(lia)).
  destruct m; cbn; lra.
Qed.
Lemma dop_hidden : forall me m mn all s, ~ in_view me s -> dop solve me m mn (s :: all) = dop solve me m mn all.
Proof.
  intros me m mn all s V. unfold dop. cbn [filter]. destruct (visible me s) eqn:E; [apply visible_iff in E; contradiction|reflexivity].
Qed.
Lemma dop_four : forall me m mn all l, seen_of me all l -> apart l -> (length l < 4)%nat -> dop solve me m mn all = Ok None.
Proof. intros me m mn all l S A L. apply (dop_singular me m mn all l S A). intro X. now apply few_lemma. Qed.

(** *** Bounds *)
Lemma normal_diag l : (forall j, (j < 4)%nat -> 0 <= normal l j j) /\ normal l 0%nat 0%nat + normal l 1%nat 1%nat + normal l 2%nat 2%nat = INR (length l) /\ normal l 3%nat 3%nat = INR (length l).
Proof.
  induction l as [|s l (IH1 & IH2 & IH3)].
  - unfold normal. cbn. repeat split; intros; lra.
  - unfold normal in *. cbn [fold_right length] in *. rewrite S_INR. repeat split.
    + intros j J. specialize (IH1 j J). pose proof (Rle_0_sqr (direction s j)) as Q. unfold Rsqr in Q. lra.
    + rewrite <- IH2. cbn [direction]. pose proof (sin2_cos2 (s_el s)) as E. pose proof (sin2_cos2 (s_az s)) as F. unfold Rsqr in E, F.
      replace (cos (s_el s) * cos (s_az s) * (cos (s_el s) * cos (s_az s))) with (cos (s_el s) * cos (s_el s) * (1 - sin (s_az s) * sin (s_az s))) by (rewrite <- F; ring).
      match goal with |- ?L = ?R0 => transitivity (sin (s_el s) * sin (s_el s) + cos (s_el s) * cos (s_el s) + (R0 - 1)); [ring|rewrite E; ring] end.
    + rewrite <- IH3. cbn. ring.
Qed.
Lemma cross_two a b c d : 0 < a -> 0 < b -> 0 < c -> 0 < d -> 1 <= a * b -> 1 <= c * d -> 2 <= a * d + c * b.
Proof.
  intros A B C D H K. assert (P : 1 <= (a * d) * (c * b)) by nra. assert (0 < a * d) by nra. assert (0 < c * b) by nra.
  pose proof (pow2_ge_0 (a * d - c * b)). nra.
Qed.
Lemma dop_bounds : forall me m mn all l d, seen_of me all l -> apart l -> dop solve me m mn all = Ok (Some d) ->
  0 < d /\ components m ^ 2 <= d ^ 2 * (weight m * INR (length l)).
Proof.
  intros me m mn all l d S A E. destruct (dop_some _ _ _ _ _ _ S A E) as (X & H & NI & L & ->). pose proof (part_pos l X m H NI) as PP. split; [now apply sqrt_lt_R0|].
  rewrite pow2_sqrt by lra. destruct (normal_diag l) as (ND & NS & NT).
  pose proof (diag_pos l X 0 H ltac:(lia)) as P0. pose proof (diag_pos l X 1 H ltac:(lia)) as P1. pose proof (diag_pos l X 2 H ltac:(lia)) as P2. pose proof (diag_pos l X 3 H ltac:(lia)) as P3.
  pose proof (diag_lower l X 0 H ltac:(lia)) as L0. pose proof (diag_lower l X 1 H ltac:(lia)) as L1. pose proof (diag_lower l X 2 H ltac:(lia)) as L2. pose proof (diag_lower l X 3 H ltac:(lia)) as L3.
  set (n := INR (length l)) in *. set (b0 := normal l 0%nat 0%nat) in *. set (b1 := normal l 1%nat 1%nat) in *. set (b2 := normal l 2%nat 2%nat) in *. set (b3 := normal l 3%nat 3%nat) in *.
  set (a0 := X 0%nat 0%nat) in *. set (a1 := X 1%nat 1%nat) in *. set (a2 := X 2%nat 2%nat) in *. set (a3 := X 3%nat 3%nat) in *.
  assert (B0 : 0 < b0) by (pose proof (ND 0%nat ltac:(lia)) as Q; fold b0 in Q; nra). assert (B1 : 0 < b1) by (pose proof (ND 1%nat ltac:(lia)) as Q; fold b1 in Q; nra).
  assert (B2 : 0 < b2) by (pose proof (ND 2%nat ltac:(lia)) as Q; fold b2 in Q; nra). assert (B3 : 0 < b3) by (pose proof (ND 3%nat ltac:(lia)) as Q; fold b3 in Q; nra).
  pose proof (cross_two a0 b0 a1 b1 P0 B0 P1 B1 L0 L1). pose proof (cross_two a0 b0 a2 b2 P0 B0 P2 B2 L0 L2). pose proof (cross_two a0 b0 a3 b3 P0 B0 P3 B3 L0 L3).
  pose proof (cross_two a1 b1 a2 b2 P1 B1 P2 B2 L1 L2). pose proof (cross_two a1 b1 a3 b3 P1 B1 P3 B3 L1 L3). pose proof (cross_two a2 b2 a3 b3 P2 B2 P3 B3 L2 L3).
  destruct m; cbn [part components weight]; fold a0 a1 a2 a3.
  - replace (2 * n) with (b0 + b1 + b2 + b3) by lra. lra.
  - replace (1 * n) with (b0 + b1 + b2) by lra. lra.
  - apply Rle_trans with ((a0 + a1) * (b0 + b1)); [lra|]. apply Rmult_le_compat_l; lra.
  - apply Rle_trans with (a2 * b2); [lra|]. apply Rmult_le_compat_l; lra.
  - rewrite Rmult_1_l, <- NT. lra.
  - contradiction.
Qed.

(** *** Only directions matter *)
Lemma normal_same l l' : Forall2 (fun s t => s_el s = s_el t /\ s_az s = s_az t) l l' -> forall i j, normal l i j = normal l' i j.
Proof.
  induction 1 as [|s t l l' [E F] _ IH]; intros i j; [reflexivity|]. unfold normal in *. cbn [fold_right]. rewrite IH. unfold direction. rewrite E, F. reflexivity.
Qed.
Lemma filter_same me l l' : Forall2 (fun s t => s_el s = s_el t /\ s_az s = s_az t) l l' ->
  Forall2 (fun s t => s_el s = s_el t /\ s_az s = s_az t) (filter (visible me) l) (filter (visible me) l').
Proof.
  induction 1 as [|s t l l' [E F] _ IH]; cbn; [constructor|]. replace (visible me s) with (visible me t) by (unfold visible; now rewrite E). destruct (visible me t); [constructor; auto|exact IH].
Qed.
End D.
Lemma Forall2_len {A B} (R : A -> B -> Prop) l m : Forall2 R l m -> length l = length m.
Proof. induction 1; cbn; congruence. Qed.
(** Two skies whose normal matrices have inverses with the same diagonal parts have the same values. *)
Lemma dop_transfer solve : solver solve -> forall me m mn all all' l l', seen_of me all l -> seen_of me all' l' -> apart l -> apart l' -> length l = length l' ->
  (forall X, inverse (normal l) X -> exists Y, inverse (normal l') Y /\ part m Y = part m X) ->
  (forall Y, inverse (normal l') Y -> exists X, inverse (normal l) X) -> dop solve me m mn all = dop solve me m mn all'.
Proof.
  intros SO me m mn all all' l l' S S' A A' LE H1 H2.
  destruct (Z_lt_le_dec mn (Z.of_nat (length l))) as [L|L].
  - assert (L' : (mn < Z.of_nat (length l'))%Z) by (now rewrite <- LE). destruct (invertible_dec solve SO l A) as [[X H]|N].
    + destruct (H1 X H) as (Y & HY & PE). assert (DM : m = Invalid \/ m <> Invalid) by (destruct m; auto; right; discriminate). destruct DM as [->|NI].
      * now rewrite (dop_invalid solve SO _ _ _ _ _ S A L H), (dop_invalid solve SO _ _ _ _ _ S' A' L' HY).
      * rewrite (dop_value solve SO _ _ _ _ _ _ S A L H NI), (dop_value solve SO _ _ _ _ _ _ S' A' L' HY NI). now rewrite PE.
    + rewrite (dop_singular solve SO _ _ _ _ _ S A N). symmetry. apply (dop_singular solve SO me m mn all' l' S' A'). intros Y HY. destruct (H2 Y HY) as [X HX]. exact (N X HX).
  - rewrite (dop_few solve _ _ _ _ _ S L). symmetry. apply (dop_few solve _ _ _ _ _ S'). now rewrite <- LE.
Qed.
Lemma dop_range : forall solve me m mn all all', solver solve -> apart all -> apart all' ->
  Forall2 (fun s t => s_el s = s_el t /\ s_az s = s_az t) all all' -> dop solve me m mn all = dop solve me m mn all'.
Proof.
  intros solve me m mn all all' SO A A' F. pose proof (filter_same me all all' F) as G.
  apply (dop_transfer solve SO me m mn all all' _ _ (filter_seen me all) (filter_seen me all')).
  - intros s I. apply A. apply filter_In in I. tauto.
  - intros s I. apply A'. apply filter_In in I. tauto.
  - exact (Forall2_len _ _ _ G).
  - intros X H. exists X. split; [|reflexivity]. apply (inverse_ext (normal (filter (visible me) all))); [intros; now apply normal_same|exact H].
  - intros Y H. exists Y. apply (inverse_ext (normal (filter (visible me) all'))); [intros; symmetry; now apply normal_same|exact H].
Qed.

(** *** Turning the sky *)
Definition rot (a : R) : mat4 := fun i j =>
  match i with
  | O => match j with O => cos a | S O => - sin a | _ => 0 end
  | S O => match j with O => sin a | S O => cos a | _ => 0 end
  | S (S O) => match j with S (S O) => 1 | _ => 0 end
  | _ => match j with S (S (S _)) => 1 | _ => 0 end
  end.
Lemma rot_sq a i j : (i < 4)%nat -> (j < 4)%nat -> sum4 (fun k => rot a k i * rot a k j) = if Nat.eqb i j then 1 else 0.
Proof. intros I J. pose proof (sin2_cos2 a) as E. unfold Rsqr in E. unfold sum4. four i; four j; cbn; try ring; try (rewrite <- E; ring). Qed.
Lemma rot_sq' a i j : (i < 4)%nat -> (j < 4)%nat -> sum4 (fun k => rot a i k * rot a j k) = if Nat.eqb i j then 1 else 0.
Proof. intros I J. pose proof (sin2_cos2 a) as E. unfold Rsqr in E. unfold sum4. four i; four j; cbn; try ring; try (rewrite <- E; ring). Qed.
Lemma turned_direction a s i : (i < 4)%nat -> direction (turned a s) i = sum4 (fun k => rot a i k * direction s k).
Proof. intro I. unfold sum4, turned. four i; cbn; rewrite ?cos_plus, ?sin_plus; ring. Qed.
Definition conj (a : R) (M : mat4) : mat4 := fun i j => sum4 (fun k => sum4 (fun m => rot a i k * M k m * rot a j m)).
Lemma normal_turned a l i j : (i < 4)%nat -> (j < 4)%nat -> normal (map (turned a) l) i j = conj a (normal l) i j.
Proof.
  intros I J. induction l as [|s l IH]; [unfold conj, normal, sum4; cbn; ring|].
  change (normal (map (turned a) (s :: l)) i j) with (direction (turned a s) i * direction (turned a s) j + normal (map (turned a) l) i j).
  rewrite IH, !turned_direction by assumption. unfold conj.
  change (normal (s :: l)) with (fun p q => direction s p * direction s q + normal l p q). unfold sum4. ring.
Qed.
Lemma conj_inverse a M X : inverse M X -> inverse (conj a M) (conj a X).
Proof.
  intros H i j I J. unfold conj.
  transitivity (sum4 (fun k => sum4 (fun m => sum4 (fun p => sum4 (fun q => rot a i k * M k m * X p q * rot a j q * sum4 (fun r => rot a r m * rot a r p)))))); [unfold sum4; ring|].
  rewrite (sum4_ext _ (fun k => sum4 (fun q => rot a i k * rot a j q * sum4 (fun m => M k m * X m q)))).
  - rewrite <- (rot_sq' a i j I J). apply sum4_ext. intros k K. rewrite (sum4_ext _ (fun q => (rot a i k * rot a j q) * (if Nat.eqb q k then 1 else 0))); [exact (sum4_unit (fun q => rot a i k * rot a j q) k K)|].
    intros q Q. rewrite (H k q K Q). now rewrite Nat.eqb_sym.
  - intros k K. transitivity (sum4 (fun m => sum4 (fun q => rot a i k * rot a j q * (M k m * X m q)))).
    + apply sum4_ext. intros m Mm. rewrite sum4_swap. apply sum4_ext. intros q Q.
      rewrite (sum4_ext _ (fun p => rot a i k * M k m * X p q * rot a j q * (if Nat.eqb p m then 1 else 0))) by (intros p P; rewrite (rot_sq a m p Mm P); now rewrite Nat.eqb_sym).
      rewrite (sum4_unit (fun p => rot a i k * M k m * X p q * rot a j q) m Mm). ring.
    + rewrite sum4_swap. apply sum4_ext. intros q Q. now rewrite sum4_scal.
Qed.
Lemma conj_part a X m : part m (conj a X) = part m X.
Proof.
  pose proof (sin2_cos2 a) as E. unfold Rsqr in E.
  assert (A : conj a X 0%nat 0%nat + conj a X 1%nat 1%nat = (sin a * sin a + cos a * cos a) * (X 0%nat 0%nat + X 1%nat 1%nat)) by (unfold conj, sum4; cbn; ring).
  rewrite E in A. assert (B : conj a X 2%nat 2%nat = X 2%nat 2%nat) by (unfold conj, sum4; cbn; ring). assert (C : conj a X 3%nat 3%nat = X 3%nat 3%nat) by (unfold conj, sum4; cbn; ring).
  destruct m; cbn [part]; lra.
Qed.
Lemma turned_back a l : Forall2 (fun s t => s_el s = s_el t /\ s_az s = s_az t) (map (turned (- a)) (map (turned a) l)) l.
Proof. induction l as [|s l IH]; cbn; constructor; [split; cbn; lra|exact IH]. Qed.
Lemma dop_turned : forall solve me m mn all a, solver solve -> apart all -> dop solve me m mn (map (turned a) all) = dop solve me m mn all.
Proof.
  intros solve me m mn all a SO A. symmetry. pose proof (filter_seen me all) as S. set (l := filter (visible me) all) in *.
  assert (S2 : seen_of me (map (turned a) all) (map (turned a) l)).
  { clear - S. clearbody l. induction S as [|s all l V S IH|s all l V S IH]; cbn; constructor; assumption. }
  assert (AL : apart l) by (intros s I; apply A; apply filter_In in I; tauto).
  apply (dop_transfer solve SO me m mn all _ l (map (turned a) l) S S2 AL).
  - intros s I. apply in_map_iff in I. destruct I as (t & <- & I). cbn. now apply AL.
  - now rewrite map_length.
  - intros X H. exists (conj a X). split; [|apply conj_part].
    apply (inverse_ext (conj a (normal l))); [intros; symmetry; now apply normal_turned|now apply conj_inverse].
  - intros Y H. exists (conj (- a) Y). apply (inverse_ext (normal (map (turned (- a)) (map (turned a) l)))); [intros; apply normal_same, turned_back|].
    apply (inverse_ext (conj (- a) (normal (map (turned a) l)))); [intros; symmetry; now apply normal_turned|now apply conj_inverse].
Qed.
