(** When the observations of several satellites and instruments can be collected. *)
From Coq Require Import ZArith List Lia.
From Verif Require Import Base BaseFacts Coverage_Model Seen_Model.
Import ListNotations.

Lemma mapM_total {A B} (f : A -> pyres B) l : (forall x, exists y, f x = Ok y) -> exists k, mapM f l = Ok k /\ length k = length l.
Proof.
  intro H. induction l as [|a l (k & E & L)]; [exists []; split; reflexivity|].
  destruct (H a) as [y Y]. exists (y :: k). cbn [mapM length]. rewrite Y. cbn [bind]. rewrite E. cbn [bind]. split; [reflexivity|now rewrite L].
Qed.
Lemma multi_fails_lemma {C S} srt (members : C -> list S) n_inst collect sats :
  (forall s i, exists rows, collect s i = Ok rows) ->
  (collect_multi_seen srt members n_inst collect sats = Raise ValueError <-> forall c s, In c sats -> In s (members c) -> n_inst s = 0%nat)
  /\ ((exists out, collect_multi_seen srt members n_inst collect sats = Ok out) <-> exists c s, In c sats /\ In s (members c) /\ (0 < n_inst s)%nat).
Proof.
  intro H. unfold collect_multi_seen. set (ps := flat_map _ sats).
  destruct (mapM_total (fun x => collect (fst x) (snd x)) ps) as (fs & E & L); [intros [s i]; apply H|]. rewrite E. cbn [bind].
  assert (I : forall s i, In (s, i) ps <-> exists c, In c sats /\ In s (members c) /\ (i < n_inst s)%nat).
  { intros s i. unfold ps. rewrite in_flat_map. split.
    - intros (c & Hc & Hx). apply in_flat_map in Hx as (s' & Hs & Hi). apply in_map_iff in Hi as (j & [= -> ->] & Hj). apply in_seq in Hj. exists c. repeat split; try assumption. lia.
    - intros (c & Hc & Hs & Hi). exists c. split; [exact Hc|]. apply in_flat_map. exists s. split; [exact Hs|]. apply in_map_iff. exists i. split; [reflexivity|]. apply in_seq. lia. }
  destruct fs as [|f fs].
  - assert (P : ps = []) by (destruct ps; [reflexivity|discriminate L]).
    assert (N : forall c s, In c sats -> In s (members c) -> n_inst s = 0%nat).
    { intros c s Hc Hs. destruct (n_inst s) as [|n] eqn:En; [reflexivity|exfalso]. assert (Q : In (s, 0%nat) ps) by (apply I; exists c; repeat split; try assumption; lia). rewrite P in Q. destruct Q. }
    split; [split; [intros _; exact N|reflexivity]|]. split; [intros [out O]; discriminate O|]. intros (c & s & Hc & Hs & Hn). rewrite (N c s Hc Hs) in Hn. lia.
  - destruct ps as [|[s i] ps']; [discriminate L|]. destruct (proj1 (I s i) (or_introl eq_refl)) as (c & Hc & Hs & Hi).
    split; [split; [intro O; discriminate O|intro N; rewrite (N c s Hc Hs) in Hi; lia]|]. split; [intros _|intros _; eexists; reflexivity].
    exists c, s. repeat split; try assumption. lia.
Qed.
