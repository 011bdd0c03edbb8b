(** Proofs about masks and instruments without pixels: C185. *)
From Coq Require Import Reals ZArith List Bool.
From Verif Require Import Base Instr_Model Track_Model Track_Spec Track_Proofs Mask_Model Mask_Spec.
Import ListNotations.
Open Scope R_scope.

Lemma pixels_refused (W : world) S (O : geo_ops (w_G W) S) sa times idx i elevation m : picks (sa_instruments sa) idx i ->
  times <> [] -> ~ (exists p, in_pointed i = Some p /\ pi_rect p = true) ->
  ground_pixels_in W S O sa times idx elevation m = Raise ValueError.
Proof.
  intros P T N. unfold ground_pixels_in. destruct times as [|t times]; [congruence|]. cbn [length Nat.eqb].
  rewrite (py_index_ok _ _ _ P). cbn [bind]. destruct (in_pointed i) as [p|]; [|reflexivity].
  destruct (pi_rect p) eqn:R; [|reflexivity]. exfalso. apply N. eauto.
Qed.
