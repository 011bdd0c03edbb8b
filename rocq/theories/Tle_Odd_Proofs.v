(** Lists with an odd number of lines (C03). *)
From Coq Require Import ZArith List Bool Lia.
From Verif Require Import Base BaseFacts Tle_Model Tle_Spec Tle_Proofs.
Import ListNotations.

Section Odd.
Variable epoch : pystr -> pystr -> pyres Z.
Hypothesis VE : forall a b e, epoch a b = Raise e -> e = ValueError.
Lemma odd_epochs n : forall v, (length v <= n)%nat -> Nat.odd (length v) = true ->
  (epochs epoch v = Raise IndexError /\ forall i a b, nth_error v (2 * i) = Some a -> nth_error v (2 * i + 1) = Some b -> exists e, epoch a b = Ok e)
  \/ (epochs epoch v = Raise ValueError /\ exists i a b, nth_error v (2 * i) = Some a /\ nth_error v (2 * i + 1) = Some b /\ epoch a b = Raise ValueError).
Proof.
  induction n as [|n IH]; intros v L O; [destruct v; [discriminate|cbn in L; lia]|].
  destruct v as [|a [|b r]]; [discriminate| |].
  - left. split; [reflexivity|]. intros i x y _ H. replace (2 * i + 1)%nat with (S (2 * i)) in H by lia. destruct (2 * i)%nat; discriminate.
  - cbn [epochs]. destruct (epoch a b) as [e|e] eqn:E; cbn [bind].
    + destruct (IH r) as [[R A]|[R (i & x & y & P & Q & W)]]; [cbn in L; lia|exact O| |]; rewrite R; cbn [bind].
      * left. split; [reflexivity|]. intros [|i] x y P Q; [cbn in P, Q; injection P as <-; injection Q as <-; eauto|].
        replace (2 * S i)%nat with (S (S (2 * i))) in P by lia. replace (2 * S i + 1)%nat with (S (S (2 * i + 1))) in Q by lia. exact (A i x y P Q).
      * right. split; [reflexivity|]. exists (S i), x, y. replace (2 * S i)%nat with (S (S (2 * i))) by lia. replace (S (S (2 * i)) + 1)%nat with (S (S (2 * i + 1))) by lia. auto.
    + right. pose proof (VE _ _ _ E) as X. subst e. split; [reflexivity|]. exists 0%nat, a, b. split; [reflexivity|]. split; [reflexivity|exact E].
Qed.
Lemma odd_exact v : Nat.odd (length v) = true -> (2 <= length v)%nat ->
  (construct_tle epoch v = Raise IndexError <-> forall i a b, nth_error v (2 * i) = Some a -> nth_error v (2 * i + 1) = Some b -> exists e, epoch a b = Ok e)
  /\ (construct_tle epoch v = Raise IndexError \/ construct_tle epoch v = Raise ValidationError).
Proof.
  intros O L. unfold construct_tle, is_chronological_tle. destruct (Nat.ltb_spec (length v) 2); [lia|].
  destruct (odd_epochs (length v) v (le_n _) O) as [[R A]|[R (i & x & y & P & Q & W)]]; rewrite R; cbn [bind pydantic].
  - split; [split; auto|auto].
  - split; [|auto]. split; [discriminate|]. intro A. destruct (A i x y P Q) as [e E]. congruence.
Qed.
End Odd.
