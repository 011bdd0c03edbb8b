(** Configuration loading: exactly which mappings are accepted, and as what. *)
From Coq Require Import String ZArith QArith List Bool Lia.
From Verif Require Import Base Tle_Model Config_Model Config_Spec Config_Proofs.
Import ListNotations.
Open Scope Z_scope.

Section P.
Variable si : pystr -> option Z.
Variable sf : pystr -> option num.
Variable sb : pystr -> option bool.
Variable jf : Z -> option num.

Lemma means_int_spec v n : coerce_int si v = Some n <-> means_int si v n.
Proof.
  split.
  - destruct v as [| b |z|x|s| |l|m]; cbn; try discriminate.
    + destruct b; intro H; injection H as <-; constructor.
    + intro H; injection H as <-; constructor.
    + destruct x as [q| | |]; try discriminate. destruct (Z.eqb_spec (Qnum q mod Zpos (Qden q)) 0) as [E|E]; [|discriminate].
      intro H; injection H as <-. constructor. unfold Qeq. cbn. pose proof (Z.div_mod (Qnum q) (Zpos (Qden q))). lia.
    + intro H. now constructor.
  - intros [z| | |q z E|s z E]; cbn; try reflexivity; [|exact E].
    unfold Qeq in E. cbn in E. rewrite Z.mul_1_r in E. rewrite E. rewrite Z.mod_mul by discriminate. cbn. now rewrite Z.div_mul by discriminate.
Qed.
Lemma means_float_spec v x : coerce_float sf jf v = Some x <-> means_float sf jf v x.
Proof.
  split.
  - destruct v as [| b |z|y|s| |l|m]; cbn; try discriminate.
    + destruct b; intro H; injection H as <-; constructor.
    + intro H. now constructor.
    + intro H; injection H as <-; constructor.
    + intro H. now constructor.
  - intros [z y E| | |y|s y E]; cbn; first [reflexivity|exact E].
Qed.
Lemma means_bool_spec v b : coerce_bool sb v = Some b <-> means_bool sb v b.
Proof.
  split.
  - destruct v as [| c |z|y|s| |l|m]; cbn; try discriminate.
    + intro H; injection H as <-; constructor.
    + destruct z as [|p|p]; try discriminate; [intro H; injection H as <-; constructor|]. destruct p; try discriminate. intro H; injection H as <-; constructor.
    + destruct y as [q| | |]; try discriminate. destruct (Qeq_bool q 0) eqn:E0.
      * intro H; injection H as <-. apply Qeq_bool_iff in E0. now constructor.
      * destruct (Qeq_bool q 1) eqn:E1; [|discriminate]. intro H; injection H as <-. apply Qeq_bool_iff in E1. now constructor.
    + intro H. now constructor.
  - intros [c| | |q E|q E|s c E]; cbn; try reflexivity; [| |exact E].
    + apply Qeq_bool_iff in E. now rewrite E.
    + assert (F : Qeq_bool q 0 = false). { destruct (Qeq_bool q 0) eqn:Z0; [|reflexivity]. apply Qeq_bool_iff in Z0. rewrite E in Z0. discriminate. }
      rewrite F. apply Qeq_bool_iff in E. now rewrite E.
Qed.
Lemma check_ge_iff m n k : check_ge m n = Some k <-> k = n /\ m <= n.
Proof.
  split; [apply check_ge_some|]. intros [-> L]. unfold check_ge. apply Z.leb_le in L. now rewrite L.
Qed.
Lemma check_gt0_iff x y : check_gt0 x = Some y <-> y = x /\ positive x.
Proof.
  split; [apply check_gt0_some|]. intros [-> P]. destruct x as [q| | |]; cbn in *; try reflexivity; try contradiction.
  destruct (Qle_bool q 0) eqn:E; [|reflexivity]. apply Qle_bool_iff in E. exfalso. apply (Qlt_not_le _ _ P E).
Qed.
Lemma andthen_iff {A B} (x : option A) (f : A -> option B) y : andthen x f = Some y <-> exists a, x = Some a /\ f a = Some y.
Proof. split; [apply andthen_some|]. intros (a & -> & E). exact E. Qed.

Lemma field_iff {A} l name (d : A) conv means bound x : (forall v y, conv v = Some y <-> means v y /\ bound y) ->
  field l (lit name) d conv = Some x <-> set_to l name means bound d x.
Proof.
  intro H. unfold field, set_to. destruct (lookup (lit name) l) as [v|] eqn:E.
  - apply lookup_some in E. split.
    + intro C. left. exists v. split; [exact E|]. now apply H.
    + intros [(w & L & M)|[N _]].
      * apply lookup_some in L, E. rewrite L in E. injection E as <-. now apply H.
      * apply lookup_none in N. apply lookup_some in E. congruence.
  - split.
    + intro C. injection C as <-. right. split; [now apply lookup_none|reflexivity].
    + intros [(w & L & M)|[N ->]]; [|reflexivity]. apply lookup_some in L. congruence.
Qed.
Lemma int_conv m v y : andthen (coerce_int si v) (check_ge m) = Some y <-> means_int si v y /\ m <= y.
Proof.
  rewrite andthen_iff. split.
  - intros (a & E & C). apply check_ge_iff in C. destruct C as [-> L]. split; [now apply means_int_spec|exact L].
  - intros [M L]. exists y. split; [now apply means_int_spec|]. now apply check_ge_iff.
Qed.
Lemma float_conv v y : andthen (coerce_float sf jf v) check_gt0 = Some y <-> means_float sf jf v y /\ positive y.
Proof.
  rewrite andthen_iff. split.
  - intros (a & E & C). apply check_gt0_iff in C. destruct C as [-> L]. split; [now apply means_float_spec|exact L].
  - intros [M L]. exists y. split; [now apply means_float_spec|]. now apply check_gt0_iff.
Qed.
Lemma and_True (A : Prop) B : (B <-> A) -> (B <-> A /\ True).
Proof. tauto. Qed.

Lemma construct_iff l c : construct si sf sb jf l = Ok c <-> describes si sf sb jf l c.
Proof.
  split.
  - intro H. apply construct_ok in H. destruct H as (E1 & E2 & E3 & E4 & E5 & E6 & E7 & E8 & E9 & E10). unfold describes.
    repeat split; (eapply field_iff; [|eassumption]); intros v y; first [apply int_conv|apply float_conv|apply and_True, means_float_spec|apply and_True, means_bool_spec].
  - intros (E1 & E2 & E3 & E4 & E5 & E6 & E7 & E8 & E9 & E10). unfold construct.
    eapply field_iff in E1; [|intros v y; apply int_conv]. eapply field_iff in E2; [|intros v y; apply int_conv].
    eapply field_iff in E3; [|intros v y; apply float_conv]. eapply field_iff in E4; [|intros v y; apply float_conv]. eapply field_iff in E5; [|intros v y; apply float_conv].
    apply (field_iff l _ (Fin 30) (coerce_float sf jf) _ _ _ (fun v y => and_True _ _ (means_float_spec v y))) in E6.
    apply (field_iff l _ true (coerce_bool sb) _ _ _ (fun v y => and_True _ _ (means_bool_spec v y))) in E7. apply (field_iff l _ true (coerce_bool sb) _ _ _ (fun v y => and_True _ _ (means_bool_spec v y))) in E8.
    apply (field_iff l _ true (coerce_bool sb) _ _ _ (fun v y => and_True _ _ (means_bool_spec v y))) in E9. apply (field_iff l _ true (coerce_bool sb) _ _ _ (fun v y => and_True _ _ (means_bool_spec v y))) in E10.
    unfold k_ellip, k_side, k_pos, k_vel, k_elev, k_dur, k_lazy, k_track, k_events, k_tle.
    rewrite E1. cbn [andthen]. rewrite E2. cbn [andthen]. rewrite E3. cbn [andthen]. rewrite E4. cbn [andthen]. rewrite E5. cbn [andthen].
    rewrite E6. cbn [andthen]. rewrite E7. cbn [andthen]. rewrite E8. cbn [andthen]. rewrite E9. cbn [andthen]. rewrite E10. cbn [andthen]. now destruct c.
Qed.

Lemma load_describes l c : load_yaml_config si sf sb jf (Doc (YMap l)) = Ok c <-> keyword_doc (YMap l) /\ describes si sf sb jf l c.
Proof.
  rewrite <- construct_iff. cbn. split.
  - destruct (str_keys l) eqn:S; [|discriminate]. destruct (construct_cases si sf sb jf l) as [[c' E]|E]; rewrite E; cbn; [|discriminate].
    intro H. split; [exists l; split; [reflexivity|now apply str_keys_spec]|exact H].
  - intros [(l' & L & F) E]. injection L as <-. apply str_keys_spec in F. rewrite F, E. reflexivity.
Qed.
Lemma load_rejects l : keyword_doc (YMap l) ->
  (load_yaml_config si sf sb jf (Doc (YMap l)) = Raise ConfigError <-> forall c, ~ describes si sf sb jf l c).
Proof.
  intro K. split.
  - intros E c D. pose proof (proj2 (load_describes l c) (conj K D)). congruence.
  - intro N. destruct (keyword_doc_cases si sf sb jf _ K) as [[c E]|E]; [|exact E]. apply load_describes in E. destruct (N c (proj2 E)).
Qed.
End P.
