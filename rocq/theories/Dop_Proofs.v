(** Proofs about dilution of precision. *)
From Coq Require Import Reals ZArith List Bool Lra Lia Sorting.Permutation.
From Verif Require Import Base BaseFacts RBase RFacts Geom_Model Dop_Model Dop_Spec.
Import ListNotations.
Open Scope R_scope.

(** *** Linear algebra in four dimensions *)
Definition dot (u v : vec4) : R := sum4 (fun k => u k * v k).
Definition mv (M : mat4) (u : vec4) : vec4 := fun i => sum4 (fun k => M i k * u k).
Definition symm (M : mat4) : Prop := forall i j, M i j = M j i.
Definition qf (M : mat4) (u : vec4) : R := dot u (mv M u).
Definition unit (j : nat) : vec4 := fun k => if Nat.eqb k j then 1 else 0.
Ltac four i := destruct i as [|[|[|[|i]]]]; [| | | |exfalso; lia].

Lemma inverse_col M X j : inverse M X -> (j < 4)%nat -> forall i, (i < 4)%nat -> mv M (fun k => X k j) i = unit j i.
Proof. intros H J i I. unfold mv, unit. apply H; assumption. Qed.
Lemma sum4_swap (f : nat -> nat -> R) : sum4 (fun i => sum4 (fun j => f i j)) = sum4 (fun j => sum4 (fun i => f i j)).
Proof. unfold sum4. ring. Qed.
Lemma sum4_ext f g : (forall k, (k < 4)%nat -> f k = g k) -> sum4 f = sum4 g.
Proof. intro H. unfold sum4. rewrite !H by lia. reflexivity. Qed.
Lemma sum4_unit f j : (j < 4)%nat -> sum4 (fun k => f k * (if Nat.eqb k j then 1 else 0)) = f j.
Proof. intro J. unfold sum4. four j; cbn; ring. Qed.
Lemma sum4_scal c f : sum4 (fun k => c * f k) = c * sum4 f.
Proof. unfold sum4. ring. Qed.
Lemma inverse_symm M X : symm M -> inverse M X -> forall i j, (i < 4)%nat -> (j < 4)%nat -> X i j = X j i.
Proof.
  intros S H i j I J.
  transitivity (sum4 (fun l => sum4 (fun k => X k i * (M k l * X l j)))).
  - rewrite (sum4_ext _ (fun l => X l j * (if Nat.eqb l i then 1 else 0))); [symmetry; now apply (sum4_unit (fun l => X l j))|].
    intros l L. rewrite <- (H l i L I). rewrite <- sum4_scal. apply sum4_ext. intros k _. rewrite (S k l). ring.
  - rewrite sum4_swap. rewrite (sum4_ext _ (fun k => X k i * (if Nat.eqb k j then 1 else 0))); [now apply (sum4_unit (fun k => X k i))|].
    intros k K. rewrite <- (H k j K J). now rewrite <- sum4_scal.
Qed.
Lemma inverse_unique M X Y : symm M -> inverse M X -> inverse M Y -> forall i j, (i < 4)%nat -> (j < 4)%nat -> X i j = Y i j.
Proof.
  intros S H K i j I J. rewrite (inverse_symm M X S H i j I J).
  transitivity (sum4 (fun l => sum4 (fun k => X k i * (M k l * Y l j)))).
  - rewrite sum4_swap. rewrite (sum4_ext _ (fun k => X k i * (if Nat.eqb k j then 1 else 0))); [symmetry; now apply (sum4_unit (fun k => X k i))|].
    intros k Kk. rewrite <- (K k j Kk J). now rewrite <- sum4_scal.
  - rewrite (sum4_ext _ (fun l => Y l j * (if Nat.eqb l i then 1 else 0))); [now apply (sum4_unit (fun l => Y l j))|].
    intros l L. rewrite <- (H l i L I). rewrite <- sum4_scal. apply sum4_ext. intros k _. rewrite (S k l). ring.
Qed.
Lemma inverse_ext M N X : (forall i j, (i < 4)%nat -> (j < 4)%nat -> M i j = N i j) -> inverse M X -> inverse N X.
Proof. intros E H i j I J. rewrite <- (H i j I J). apply sum4_ext. intros k K. now rewrite E. Qed.

(** *** Normal matrices *)
Lemma normal_symm l : symm (normal l).
Proof. intros i j. unfold normal. induction l as [|s l IH]; cbn; [reflexivity|]. rewrite IH. ring. Qed.
Lemma normal_qf l u : qf (normal l) u = fold_right (fun s a => (dot (direction s) u) ^ 2 + a) 0 l.
Proof.
  unfold normal, qf, mv, dot, sum4. induction l as [|s l IH]; cbn [fold_right]; [ring|]. rewrite <- IH. ring.
Qed.
Lemma qf_nonneg l u : 0 <= qf (normal l) u.
Proof. rewrite normal_qf. induction l as [|s l IH]; cbn [fold_right]; [lra|]. pose proof (pow2_ge_0 (dot (direction s) u)). lra. Qed.
Lemma normal_perm l m : Permutation l m -> forall i j, normal l i j = normal m i j.
Proof. induction 1; intros i j; unfold normal in *; cbn [fold_right]; [reflexivity|rewrite IHPermutation; reflexivity|lra|now rewrite IHPermutation1]. Qed.
Lemma diag_qf M X j : inverse M X -> (j < 4)%nat -> X j j = qf M (fun k => X k j).
Proof.
  intros H J. unfold qf, dot. rewrite (sum4_ext _ (fun k => X k j * (if Nat.eqb k j then 1 else 0))); [symmetry; now apply (sum4_unit (fun k => X k j))|].
  intros k K. now rewrite (inverse_col M X j H J k K).
Qed.
(** For every vector, [2 u_j - u M u <= X_jj]. *)
Lemma diag_max l X j u : inverse (normal l) X -> (j < 4)%nat -> 2 * u j - qf (normal l) u <= X j j.
Proof.
  intros H J. set (M := normal l) in *. set (v := fun k => X k j).
  assert (E : X j j - (2 * u j - qf M u) = qf M (fun k => u k - v k)).
  { assert (Q : qf M (fun k => u k - v k) = qf M u - 2 * dot u (mv M v) + qf M v).
    { unfold qf, dot, mv, sum4. rewrite (normal_symm l 1%nat 0%nat : M 1%nat 0%nat = M 0%nat 1%nat), (normal_symm l 2%nat 0%nat : M 2%nat 0%nat = M 0%nat 2%nat), (normal_symm l 3%nat 0%nat : M 3%nat 0%nat = M 0%nat 3%nat),
        (normal_symm l 2%nat 1%nat : M 2%nat 1%nat = M 1%nat 2%nat), (normal_symm l 3%nat 1%nat : M 3%nat 1%nat = M 1%nat 3%nat), (normal_symm l 3%nat 2%nat : M 3%nat 2%nat = M 2%nat 3%nat). ring. }
    rewrite Q. assert (D : dot u (mv M v) = u j).
    { unfold dot. rewrite (sum4_ext _ (fun k => u k * (if Nat.eqb k j then 1 else 0))); [now apply sum4_unit|]. intros k K. f_equal. now apply (inverse_col M X j H J k K). }
    rewrite D, (diag_qf M X j H J). fold v. ring. }
  pose proof (qf_nonneg l (fun k => u k - v k)) as N. fold M in N. lra.
Qed.
Lemma diag_pos l X j : inverse (normal l) X -> (j < 4)%nat -> 0 < X j j.
Proof.
  intros H J. pose proof (qf_nonneg l (unit j)) as N. set (q := qf (normal l) (unit j)) in *. set (t := / (1 + q)).
  assert (T : 0 < t) by (apply Rinv_0_lt_compat; lra).
  pose proof (diag_max l X j (fun k => t * unit j k) H J) as B.
  assert (E : qf (normal l) (fun k => t * unit j k) = t * t * q) by (unfold q, qf, dot, mv, sum4; ring).
  rewrite E in B. replace (unit j j) with 1 in B by (unfold unit; now rewrite Nat.eqb_refl).
  assert (A1 : t * (1 + q) = 1) by (unfold t; field; lra). assert (A2 : t * t * q = t * (t * (1 + q)) - t * t) by ring. rewrite A1 in A2. nra.
Qed.
Lemma diag_lower l X j : inverse (normal l) X -> (j < 4)%nat -> 1 <= X j j * normal l j j.
Proof.
  intros H J. assert (Q : qf (normal l) (unit j) = normal l j j) by (unfold qf, dot, mv, sum4, unit; four j; cbn; ring).
  pose proof (qf_nonneg l (unit j)) as N. rewrite Q in N. set (m := normal l j j) in *. pose proof (diag_pos l X j H J) as P.
  assert (B : forall t, 2 * t - t * t * m <= X j j).
  { intro t. pose proof (diag_max l X j (fun k => t * unit j k) H J) as B. cbv beta in B. replace (unit j j) with 1 in B by (unfold unit; now rewrite Nat.eqb_refl).
    replace (qf (normal l) (fun k => t * unit j k)) with (t * t * qf (normal l) (unit j)) in B by (unfold qf, dot, mv, sum4; ring). rewrite Q in B. lra. }
  specialize (B (X j j)). apply Rnot_lt_le. intro L. assert (0 < X j j * (1 - X j j * m)) by (apply Rmult_lt_0_compat; lra). lra.
Qed.

(** *** One more satellite *)
Lemma inverse_add l s X : inverse (normal l) X -> exists Y, inverse (normal (s :: l)) Y.
Proof.
  intro H. set (h := direction s). set (u := mv X h). set (q := dot h u).
  assert (SY := inverse_symm _ X (normal_symm l) H).
  assert (MU : forall i, (i < 4)%nat -> sum4 (fun k => normal l i k * u k) = h i).
  { intros i I. unfold u, mv. rewrite (sum4_ext _ (fun k => sum4 (fun m => h m * (normal l i k * X k m)))) by (intros; unfold sum4; ring).
    rewrite sum4_swap. rewrite (sum4_ext _ (fun m => h m * (if Nat.eqb m i then 1 else 0))); [now apply sum4_unit|]. intros m Mm. rewrite sum4_scal, (H i m I Mm). now rewrite Nat.eqb_sym. }
  assert (HX : forall j, (j < 4)%nat -> sum4 (fun k => h k * X k j) = u j).
  { intros j J. unfold u, mv. apply sum4_ext. intros k K. rewrite (SY k j K J). ring. }
  assert (Q : 0 <= q).
  { replace q with (qf (normal l) u); [apply qf_nonneg|]. unfold qf, q, dot, mv. rewrite (sum4_ext _ (fun k => u k * h k)); [unfold sum4; ring|]. intros k K. f_equal. now apply MU. }
  exists (fun k j => X k j - u k * u j / (1 + q)). intros i j I J.
  assert (E : forall k, normal (s :: l) i k = h i * h k + normal l i k) by reflexivity.
  rewrite (sum4_ext _ (fun k => normal l i k * X k j + h i * (h k * X k j) - (normal l i k * u k) * (u j / (1 + q)) - (h k * u k) * (h i * u j / (1 + q)))) by (intros k _; rewrite E; field; lra).
  replace (sum4 _) with (sum4 (fun k => normal l i k * X k j) + h i * sum4 (fun k => h k * X k j) - sum4 (fun k => normal l i k * u k) * (u j / (1 + q)) - sum4 (fun k => h k * u k) * (h i * u j / (1 + q))) by (unfold sum4; ring).
  rewrite (H i j I J), (HX j J), (MU i I). change (sum4 (fun k => h k * u k)) with q. field. lra.
Qed.
Lemma diag_add l s X Y j : inverse (normal l) X -> inverse (normal (s :: l)) Y -> (j < 4)%nat -> Y j j <= X j j.
Proof.
  intros H K J. pose proof (diag_max l X j (fun k => Y k j) H J) as B. pose proof (diag_qf _ Y j K J) as D.
  rewrite normal_qf in D. cbn [fold_right] in D. rewrite <- normal_qf in D. pose proof (pow2_ge_0 (dot (direction s) (fun k => Y k j))). lra.
Qed.

(** *** Fewer than four satellites *)
Definition det4 (m : nat -> nat -> R) : R :=
  let d3 a b c := m 1%nat a * (m 2%nat b * m 3%nat c - m 2%nat c * m 3%nat b) - m 1%nat b * (m 2%nat a * m 3%nat c - m 2%nat c * m 3%nat a) + m 1%nat c * (m 2%nat a * m 3%nat b - m 2%nat b * m 3%nat a) in
  m 0%nat 0%nat * d3 1%nat 2%nat 3%nat - m 0%nat 1%nat * d3 0%nat 2%nat 3%nat + m 0%nat 2%nat * d3 0%nat 1%nat 3%nat - m 0%nat 3%nat * d3 0%nat 1%nat 2%nat.
Lemma det_rank3 (a b c : vec4) (p q r : vec4) : det4 (fun i j => a i * p j + b i * q j + c i * r j) = 0.
Proof. unfold det4. ring. Qed.
Lemma few_singular (a b c : vec4) M X : (forall i j, M i j = a i * a j + b i * b j + c i * c j) -> ~ inverse M X.
Proof.
  intros E H. pose proof (det_rank3 a b c (fun j => sum4 (fun k => a k * X k j)) (fun j => sum4 (fun k => b k * X k j)) (fun j => sum4 (fun k => c k * X k j))) as D.
  assert (G : forall i j, (i < 4)%nat -> (j < 4)%nat -> a i * sum4 (fun k => a k * X k j) + b i * sum4 (fun k => b k * X k j) + c i * sum4 (fun k => c k * X k j) = if Nat.eqb i j then 1 else 0).
  { intros i j I J. rewrite <- (H i j I J). unfold sum4. rewrite !E. ring. }
  unfold det4 in D. rewrite !G in D by lia. cbn in D. lra.
Qed.
Lemma few_lemma l X : (length l < 4)%nat -> ~ inverse (normal l) X.
Proof.
  intro L. destruct l as [|s [|t [|u [|v l]]]]; cbn in L; [| | | |lia].
  - apply (few_singular (fun _ => 0) (fun _ => 0) (fun _ => 0)). intros. unfold normal. cbn. ring.
  - apply (few_singular (direction s) (fun _ => 0) (fun _ => 0)). intros. unfold normal. cbn [fold_right]. ring.
  - apply (few_singular (direction s) (direction t) (fun _ => 0)). intros. unfold normal. cbn [fold_right]. ring.
  - apply (few_singular (direction s) (direction t) (direction u)). intros. unfold normal. cbn [fold_right]. ring.
Qed.
