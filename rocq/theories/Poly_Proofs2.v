(** Splitting part by part, coverage of the pieces, holes. *)
From Coq Require Import Reals ZArith List Bool Lra Lia Sorting.Permutation Sorting.Sorted.
From Verif Require Import Base BaseFacts RBase RFacts Poly_Model Poly_Spec Poly_Proofs.
Import ListNotations.
Open Scope R_scope.

(** ** Parts *)
Lemma over_parts_geoms f s t : over_parts f s = Ok t ->
  exists ts, Forall2 (fun p u => f p = Ok u) (geoms s) ts /\ geoms t = flat_map geoms ts.
Proof.
  destruct s as [p|l]; simpl; intro H.
  - exists [t]. split; [constructor; [exact H|constructor]|simpl; now rewrite app_nil_r].
  - destruct (mapM f l) as [ts|e] eqn:E; [|discriminate]. simpl in H. injection H as <-.
    exists ts. split; [now apply mapM_ok|reflexivity].
Qed.
Lemma mapM_total {A B} (f : A -> pyres B) l : (forall x, In x l -> exists y, f x = Ok y) -> exists ys, mapM f l = Ok ys.
Proof.
  induction l as [|x l IH]; intro H; [now exists []|].
  destruct (H x (or_introl eq_refl)) as [y Hy], IH as [ys Hys]; [intros z Hz; apply H; now right|].
  exists (y :: ys). simpl. now rewrite Hy, Hys.
Qed.
Lemma over_parts_total f s : (exists t, over_parts f s = Ok t) <-> forall p, In p (geoms s) -> exists u, f p = Ok u.
Proof.
  split.
  - intros [t H] p Hp. apply over_parts_geoms in H. destruct H as [ts [HF _]]. clear -HF Hp.
    induction HF as [|x y l m Hxy HF IH]; [easy|]. destruct Hp as [<-|Hp]; eauto.
  - destruct s as [p|l]; simpl; intro H.
    + destruct (H p (or_introl eq_refl)) as [u Hu]. eauto.
    + destruct (mapM_total f l H) as [ys Hys]. rewrite Hys. simpl. eauto.
Qed.
Lemma flat_map_flat_map {A B C} (f : B -> list C) (g : A -> list B) l : flat_map f (flat_map g l) = flat_map (fun x => flat_map f (g x)) l.
Proof. induction l as [|x l IH]; simpl; [reflexivity|]. now rewrite flat_map_app, IH. Qed.
Lemma Forall2_flat_map_geoms (P : poly -> shape -> Prop) (ss : list shape) us :
  Forall2 P (flat_map geoms ss) us -> exists uss, us = concat uss /\ Forall2 (fun s ul => Forall2 P (geoms s) ul) ss uss.
Proof.
  revert us. induction ss as [|s ss IH]; intros us H; simpl in H.
  - inversion H. exists []. now split.
  - apply Forall2_app_inv_l in H. destruct H as [u1 [u2 [H1 [H2 ->]]]]. destruct (IH _ H2) as [uss [-> HF]].
    exists (u1 :: uss). split; [reflexivity|now constructor].
Qed.
(** A function that works part by part: the parts of the result are those of the results of the parts. *)
Definition partwise (F : shape -> pyres shape) : Prop :=
  (forall s t, F s = Ok t -> exists ts, Forall2 (fun p u => F (SPoly p) = Ok u) (geoms s) ts /\ geoms t = flat_map geoms ts)
  /\ (forall s, (exists t, F s = Ok t) <-> forall p, In p (geoms s) -> exists u, F (SPoly p) = Ok u)
  /\ (forall l t, F (SMulti l) = Ok t -> exists m, t = SMulti m).
Lemma over_parts_partwise f : partwise (over_parts f).
Proof.
  split; [|split].
  - apply over_parts_geoms.
  - apply over_parts_total.
  - intros l t H. simpl in H. destruct (mapM f l); [|discriminate]. injection H as <-. eauto.
Qed.
Lemma Forall2_mono {A B} (P Q : A -> B -> Prop) l m : (forall a b, P a b -> Q a b) -> Forall2 P l m -> Forall2 Q l m.
Proof. intros H HF. induction HF; constructor; auto. Qed.
Lemma Forall2_chain {A B C} (P : A -> B -> Prop) (Q : B -> C -> Prop) l m n :
  Forall2 P l m -> Forall2 Q m n -> Forall2 (fun a c => exists b, P a b /\ Q b c) l n.
Proof.
  intro H. revert n. induction H as [|a b l m Hab H IH]; intros n Hn; inversion Hn; subst; constructor; eauto.
Qed.
Lemma partwise_bind F G : partwise F -> partwise G -> partwise (fun s => bind (F s) G).
Proof.
  intros [F1 [F2 F3]] [G1 [G2 G3]]. split; [|split].
  - intros s t H. destruct (F s) as [s1|] eqn:E; [|discriminate]. simpl in H.
    destruct (F1 _ _ E) as [ts [HT HE]]. destruct (G1 _ _ H) as [us [HU HG]]. rewrite HE in HU.
    apply Forall2_flat_map_geoms in HU. destruct HU as [uss [-> HU]].
    assert (HV : exists vs, Forall2 (fun s v => G s = Ok v) ts vs /\ map geoms vs = map (flat_map geoms) uss).
    { clear -HU G1 G2. induction HU as [|s ul ts uss Hs HU IH]; [now exists []|].
      destruct IH as [vs [IH1 IH2]].
      destruct (proj2 (G2 s)) as [v Hv].
      { intros p Hp. clear -Hs Hp. induction Hs as [|a b l m Hab Hs IH]; [easy|]. destruct Hp as [<-|Hp]; eauto. }
      exists (v :: vs). split; [now constructor|]. simpl. f_equal; [|exact IH2].
      destruct (G1 _ _ Hv) as [ul' [Hul' ->]]. f_equal.
      clear -Hs Hul'. revert ul' Hul'. induction Hs as [|a b l m Hab Hs IH]; intros ul' H; inversion H; subst; [reflexivity|].
      rewrite Hab in H2. injection H2 as ->. now rewrite (IH _ H4). }
    destruct HV as [vs [HV1 HV2]]. exists vs. split.
    + generalize (Forall2_chain _ _ _ _ _ HT HV1). apply Forall2_mono. intros p v [u [Hu Hv]]. rewrite Hu. exact Hv.
    + rewrite HG, (flat_map_concat_map geoms vs), HV2, <- flat_map_concat_map.
      clear. induction uss as [|u uss IH]; simpl; [reflexivity|]. rewrite flat_map_app. now f_equal.
  - intro s. split.
    + intros [t H] p Hp. destruct (F s) as [s1|] eqn:E; [|discriminate]. simpl in H.
      destruct (F1 _ _ E) as [ts [HT HE]].
      assert (HG := proj1 (G2 s1) (ex_intro _ t H)). rewrite HE in HG.
      assert (exists u, In u ts /\ F (SPoly p) = Ok u) as [u [Hu1 Hu2]].
      { clear -HT Hp. induction HT as [|a b l m Hab HT IH]; [easy|]. destruct Hp as [<-|Hp].
        - exists b. split; [now left|exact Hab].
        - destruct (IH Hp) as [u [? ?]]. exists u. split; [now right|assumption]. }
      rewrite Hu2. simpl. apply (proj2 (G2 u)). intros q Hq. apply HG. apply in_flat_map. eauto.
    + intro H. destruct (proj2 (F2 s)) as [s1 E].
      { intros p Hp. destruct (H p Hp) as [u Hu]. destruct (F (SPoly p)); [eauto|discriminate]. }
      rewrite E. simpl. apply (proj2 (G2 s1)). intros q Hq. destruct (F1 _ _ E) as [ts [HT HE]]. rewrite HE in Hq.
      apply in_flat_map in Hq. destruct Hq as [u [Hu Hq]].
      assert (exists p, In p (geoms s) /\ F (SPoly p) = Ok u) as [p [Hp HFp]].
      { clear -HT Hu. induction HT as [|a b l m Hab HT IH]; [easy|]. destruct Hu as [<-|Hu].
        - exists a. split; [now left|exact Hab].
        - destruct (IH Hu) as [p [? ?]]. exists p. split; [now right|assumption]. }
      destruct (H p Hp) as [v Hv]. rewrite HFp in Hv. simpl in Hv. exact (proj1 (G2 u) (ex_intro _ v Hv) q Hq).
  - intros l t H. destruct (F (SMulti l)) as [s1|] eqn:E; [|discriminate]. simpl in H.
    destruct (F3 _ _ E) as [m ->]. eauto.
Qed.

Lemma partwise_multi F l t : partwise F -> F (SMulti l) = Ok t ->
  exists ts, Forall2 (fun p u => F (SPoly p) = Ok u) l ts /\ t = SMulti (flat_map geoms ts).
Proof.
  intros [F1 [_ F3]] H. destruct (F3 _ _ H) as [m ->]. destruct (F1 _ _ H) as [ts [HT HE]]. exists ts. split; [exact HT|]. now rewrite <- HE.
Qed.
Section Parts.
Variables (iv : shape -> bool) (mv : shape -> list piece + shape) (cr : piece -> coord * coord -> bool) (pe : piece -> piece -> bool)
  (sp : piece -> coord * coord -> list piece) (so : list R -> bool) (ss : list (R * R) -> list (R * R)).
Lemma split_before_repair_partwise : partwise (fun s => bind (split_antimeridian iv sp so ss s) (fun s1 => bind (split_south iv cr pe sp s1) (split_north iv cr pe sp))).
Proof.
  apply (partwise_bind (split_antimeridian iv sp so ss) (fun s1 => bind (split_south iv cr pe sp s1) (split_north iv cr pe sp))).
  - apply over_parts_partwise.
  - apply (partwise_bind (split_south iv cr pe sp) (split_north iv cr pe sp)); apply over_parts_partwise.
Qed.
Lemma split_no_repair s : (forall s, iv s = false -> mv s = inr s) ->
  split_polygon iv mv cr pe sp so ss s = bind (split_antimeridian iv sp so ss s) (fun s1 => bind (split_south iv cr pe sp s1) (split_north iv cr pe sp)).
Proof.
  intro H. unfold split_polygon. destruct (split_antimeridian iv sp so ss s) as [s1|]; [|reflexivity]. cbn.
  destruct (split_south iv cr pe sp s1) as [s2|]; [|reflexivity]. cbn.
  destruct (split_north iv cr pe sp s2) as [s3|]; [|reflexivity]. cbn. destruct (iv s3) eqn:E; [reflexivity|]. now rewrite H.
Qed.
Lemma split_parts_lemma l t : (forall s, iv s = false -> mv s = inr s) -> split_polygon iv mv cr pe sp so ss (SMulti l) = Ok t ->
  exists ts, Forall2 (fun p u => split_polygon iv mv cr pe sp so ss (SPoly p) = Ok u) l ts /\ t = SMulti (flat_map geoms ts).
Proof.
  intros H E. rewrite split_no_repair in E by exact H. destruct (partwise_multi _ _ _ split_before_repair_partwise E) as [ts [HT HE]].
  exists ts. split; [|exact HE]. revert HT. apply Forall2_mono. intros p u Hu. rewrite split_no_repair by exact H. exact Hu.
Qed.
Lemma split_total_parts s : (exists t, split_polygon iv mv cr pe sp so ss s = Ok t) <->
  forall p, In p (geoms s) -> exists u, split_polygon iv mv cr pe sp so ss (SPoly p) = Ok u.
Proof.
  assert (K : forall s, (exists t, split_polygon iv mv cr pe sp so ss s = Ok t) <->
    exists t, bind (split_antimeridian iv sp so ss s) (fun s1 => bind (split_south iv cr pe sp s1) (split_north iv cr pe sp)) = Ok t).
  { intro s0. unfold split_polygon. destruct (split_antimeridian iv sp so ss s0) as [s1|]; cbn; [|split; intros [t H]; discriminate].
    destruct (split_south iv cr pe sp s1) as [s2|]; cbn; [|split; intros [t H]; discriminate].
    destruct (split_north iv cr pe sp s2) as [s3|]; cbn; [|split; intros [t H]; discriminate].
    split; intros _; [eauto|]. destruct (iv s3); [eauto|]. destruct (mv s3); eauto. }
  rewrite K. destruct split_before_repair_partwise as [_ [P _]]. rewrite P. split; intros H p Hp; apply K, (H p Hp) || apply (K (SPoly p)), (H p Hp).
Qed.

(** ** Coverage *)
Variable cov : poly -> R -> R -> Prop.
Hypothesis Hmoves : moves_coverage cov.
Hypothesis Hsplits : splits_coverage cov sp.
Hypothesis Hequal : equal_coverage cov pe.
Lemma places_ext l m : (forall x y, covered_by cov l x y <-> covered_by cov m x y) -> forall X, places_of cov l X <-> places_of cov m X.
Proof. intros H X. split; intros (x & y & C & E); exists x, y; (split; [now apply H|exact E]). Qed.
Lemma places_perm l m X : (forall q, In q l <-> In q m) -> places_of cov l X <-> places_of cov m X.
Proof. intro H. apply places_ext. intros x y. split; intros (q & Q & C); exists q; (split; [now apply H|exact C]). Qed.
Lemma places_app l m X : places_of cov (l ++ m) X <-> places_of cov l X \/ places_of cov m X.
Proof.
  split.
  - intros (x & y & (q & Q & C) & E). apply in_app_iff in Q. destruct Q as [Q|Q]; [left|right]; exists x, y; (split; [now exists q|exact E]).
  - intros [(x & y & (q & Q & C) & E)|(x & y & (q & Q & C) & E)]; exists x, y; (split; [exists q; split; [apply in_app_iff; tauto|exact C]|exact E]).
Qed.
Lemma places_parts f s t : (forall p u, In p (geoms s) -> f p = Ok u -> forall X, places_of cov (geoms u) X <-> places_of cov [p] X) ->
  over_parts f s = Ok t -> forall X, places_of cov (geoms t) X <-> places_of cov (geoms s) X.
Proof.
  intros H E X. apply over_parts_geoms in E. destruct E as [ts [HT ->]].
  induction HT as [|p u l m Hp HT IH]; [reflexivity|].
  change (p :: l) with ([p] ++ l). cbn [flat_map]. rewrite !places_app, IH by (intros; eapply H; [now right|eassumption]).
  rewrite (H p u (or_introl eq_refl) Hp). reflexivity.
Qed.
(** Moving a polygon by [f], where [f] does not change places. *)
Lemma places_moved p q (f : R -> R -> R * R) (g : R -> R -> R * R) :
  (forall x y, cov q x y <-> cov p (fst (g x y)) (snd (g x y))) ->
  (forall x y, on_globe (xy (fst (g x y)) (snd (g x y))) = on_globe (xy x y)) ->
  (forall x y, g (fst (f x y)) (snd (f x y)) = (x, y)) ->
  forall X, places_of cov [q] X <-> places_of cov [p] X.
Proof.
  intros H P I X. split.
  - intros (x & y & (r & [<-|[]] & C) & E). exists (fst (g x y)), (snd (g x y)). split; [exists p; split; [now left|now apply H]|]. now rewrite P.
  - intros (x & y & (r & [<-|[]] & C) & E). exists (fst (f x y)), (snd (f x y)). split.
    + exists q. split; [now left|]. apply H. rewrite I. exact C.
    + rewrite <- P, I. exact E.
Qed.
Lemma places_turn k p X : places_of cov [move_poly (360 * IZR k) p] X <-> places_of cov [p] X.
Proof.
  apply (places_moved p _ (fun x y => (x + 360 * IZR k, y)) (fun x y => (x - 360 * IZR k, y))).
  - intros x y. exact (proj1 Hmoves (360 * IZR k) p x y).
  - intros x y. cbn. assert (E := globe_turn (xy x y) (- k) None). unfold same_place in E. rewrite E. cbn.
    f_equal. unfold xy. f_equal. rewrite opp_IZR. lra.
  - intros x y. cbn. f_equal; lra.
Qed.
Lemma wrap_antimeridian_places s t : wrap_antimeridian iv s = Ok t -> forall X, places_of cov (geoms t) X <-> places_of cov (geoms s) X.
Proof.
  apply places_parts. intros p u _ H X. unfold wrap_antimeridian_poly in H.
  destruct (forallb _ (p_ext p)); [injection H as <-; reflexivity|].
  destruct (forallb (fun c => Rleb 180 (cx c)) (p_ext p)).
  - destruct (iv _); injection H as <-; [|reflexivity]. cbn [geoms]. replace (-360) with (360 * IZR (-1)) by (simpl; lra). apply places_turn.
  - destruct (forallb (fun c => Rleb (cx c) (-180)) (p_ext p)); [|discriminate].
    destruct (iv _); injection H as <-; [|reflexivity]. cbn [geoms]. replace 360 with (360 * IZR 1) by (simpl; lra). apply places_turn.
Qed.
Lemma mirror_poly (f : coord -> coord) (g : coord -> coord) p : (forall v, In v (vertices p) -> f v = g v) ->
  mk_poly (map f (p_ext p)) (map (map f) (p_ints p)) = map_poly g p.
Proof.
  intro H. unfold map_poly. f_equal.
  - apply map_ext_in. intros v V. apply H, in_app_iff. now left.
  - apply map_ext_in. intros r R0. apply map_ext_in. intros v V. apply H, in_app_iff. right. apply in_concat. eauto.
Qed.
Lemma places_mirror p s c X : (s = 180 \/ s = -180) -> (c = 180 \/ c = -180) ->
  places_of cov [map_poly (fun v => xy (cx v + s) (c - cy v)) p] X <-> places_of cov [p] X.
Proof.
  intros S C. apply (places_moved p _ (fun x y => (x + s, c - y)) (fun x y => (x - s, c - y))).
  - intros x y. exact (proj2 Hmoves s c p x y).
  - intros x y. cbn. symmetry. assert (S' : - s = 180 \/ - s = -180) by (destruct S; [right|left]; lra).
    destruct C as [-> | ->]; [exact (globe_north (xy x y) (- s) None S')|exact (globe_south (xy x y) (- s) None S')].
  - intros x y. cbn. f_equal; lra.
Qed.
Lemma wrap_north_places s t : (forall p, In p (geoms s) -> south_of 90 p \/ north_of 90 p) -> wrap_north iv s = Ok t ->
  forall X, places_of cov (geoms t) X <-> places_of cov (geoms s) X.
Proof.
  intro HS. apply places_parts. intros p u P H X. unfold wrap_north_poly in H.
  destruct (forallb (fun c => Rleb (cy c) 90) (p_ext p)) eqn:E; [injection H as <-; reflexivity|].
  apply (fb_false _ (fun c => cy c <= 90)) in E; [|intro; apply Rleb_spec]. destruct E as (c & C & N).
  destruct (HS p P) as [B|B]; [elim N; apply B, in_app_iff; now left|].
  destruct (iv _); injection H as <-; [|reflexivity]. cbn [geoms].
  match goal with |- context [wrap_north_coord ?s] => assert (S : s = 180 \/ s = -180) by (destruct (forallb _ _); tauto); set (sh := s) in * end.
  rewrite (mirror_poly _ (fun v => xy (cx v + sh) (180 - cy v))); [now apply places_mirror; [|left]|].
  intros v V. unfold wrap_north_coord. replace (Rleb 90 (cy v)) with true; [reflexivity|]. symmetry. apply Rleb_spec. now apply B.
Qed.
Lemma wrap_south_places s t : (forall p, In p (geoms s) -> south_of (-90) p \/ north_of (-90) p) -> wrap_south iv s = Ok t ->
  forall X, places_of cov (geoms t) X <-> places_of cov (geoms s) X.
Proof.
  intro HS. apply places_parts. intros p u P H X. unfold wrap_south_poly in H.
  destruct (forallb (fun c => Rleb (-90) (cy c)) (p_ext p)) eqn:E; [injection H as <-; reflexivity|].
  apply (fb_false _ (fun c => -90 <= cy c)) in E; [|intro; apply Rleb_spec]. destruct E as (c & C & N).
  destruct (HS p P) as [B|B]; [|elim N; apply B, in_app_iff; now left].
  destruct (existsb _ (p_ints p)) eqn:I; [discriminate|].
  destruct (iv _); injection H as <-; [|reflexivity]. cbn [geoms].
  match goal with |- context [wrap_south_coord ?s] => assert (S : s = 180 \/ s = -180) by (destruct (forallb _ _); tauto); set (sh := s) in * end.
  assert (IE : forall i, In i (p_ints p) -> i = []).
  { intros i Hi. destruct i as [|a i]; [reflexivity|]. assert (existsb (fun i => negb (Nat.eqb (length i) 0)) (p_ints p) = true); [|congruence].
    apply existsb_exists. exists (a :: i). now split. }
  replace (p_ints p) with (map (map (wrap_south_coord sh)) (p_ints p)) at 1.
  - rewrite (mirror_poly _ (fun v => xy (cx v + sh) (-180 - cy v))); [now apply places_mirror; [|right]|].
    intros v V. unfold wrap_south_coord. replace (Rleb (cy v) (-90)) with true; [reflexivity|]. symmetry. apply Rleb_spec. now apply B.
  - clear -IE. induction (p_ints p) as [|i l IH]; [reflexivity|]. cbn. rewrite IH by (intros; apply IE; now right).
    rewrite (IE i (or_introl eq_refl)). reflexivity.
Qed.
Lemma polygons_app l m : polygons_of (l ++ m) = polygons_of l ++ polygons_of m.
Proof. unfold polygons_of. apply flat_map_app. Qed.
Lemma polygons_in l q : In q (polygons_of l) <-> exists g, In g l /\ In q (polygons_of [g]).
Proof.
  unfold polygons_of. rewrite in_flat_map. split; intros (g & G & Q); exists g; (split; [exact G|]); cbn in *; [now rewrite app_nil_r|now rewrite app_nil_r in Q].
Qed.
Lemma covered_in l x y : covered_by cov (polygons_of l) x y <-> exists g, In g l /\ covered_by cov (polygons_of [g]) x y.
Proof.
  split.
  - intros (q & Q & C). apply polygons_in in Q. destruct Q as (g & G & Q). exists g. split; [exact G|now exists q].
  - intros (g & G & q & Q & C). exists q. split; [apply polygons_in; eauto|exact C].
Qed.
Lemma split_meridian_step line parts part x y :
  (forall x y, covered_by cov (polygons_of [part]) x y -> covered_by cov (polygons_of parts) x y) ->
  covered_by cov (polygons_of (if cr part line then filter (fun g => negb (pe g part)) parts ++ sp part line else parts)) x y
  <-> covered_by cov (polygons_of parts) x y.
Proof.
  intro H. destruct (cr part line); [|reflexivity]. rewrite polygons_app. split.
  - intros (q & Q & C). apply in_app_iff in Q. destruct Q as [Q|Q].
    + apply polygons_in in Q. destruct Q as (g & G & Q). apply filter_In in G. apply covered_in. exists g. split; [tauto|now exists q].
    + apply H, (proj1 Hsplits part line). now exists q.
  - intro C. apply covered_in in C. destruct C as (g & G & C). destruct (pe g part) eqn:E.
    + apply (Hequal _ _ E), (proj1 Hsplits part line) in C. destruct C as (q & Q & C). exists q. split; [apply in_app_iff; now right|exact C].
    + destruct C as (q & Q & C). exists q. split; [|exact C]. apply in_app_iff. left. apply polygons_in. exists g. split; [|exact Q].
      apply filter_In. now rewrite E.
Qed.
Lemma split_meridian_covers line parts0 x y : covered_by cov (polygons_of (split_meridian cr pe sp line parts0)) x y <-> covered_by cov (polygons_of parts0) x y.
Proof.
  unfold split_meridian.
  assert (K : forall todo parts, (forall x y, covered_by cov (polygons_of todo) x y -> covered_by cov (polygons_of parts) x y) ->
    forall x y, covered_by cov (polygons_of (fold_left (fun parts part => if cr part line then filter (fun g => negb (pe g part)) parts ++ sp part line else parts) todo parts)) x y
      <-> covered_by cov (polygons_of parts) x y).
  { clear x y. induction todo as [|part todo IH]; intros parts H x y; [reflexivity|]. cbn [fold_left].
    assert (P : forall x y, covered_by cov (polygons_of [part]) x y -> covered_by cov (polygons_of parts) x y).
    { intros a b C. apply H, covered_in. exists part. split; [now left|exact C]. }
    rewrite IH; [now apply split_meridian_step|]. intros a b C. apply split_meridian_step; [exact P|]. apply H, covered_in.
    apply covered_in in C. destruct C as (g & G & C). exists g. split; [now right|exact C]. }
  apply K. auto.
Qed.
Lemma split_meridian_sides line parts0 c : (forall q, In q (polygons_of parts0) -> south_of c q \/ north_of c q) ->
  forall q, In q (polygons_of (split_meridian cr pe sp line parts0)) -> south_of c q \/ north_of c q.
Proof.
  unfold split_meridian. intro H.
  assert (K : forall todo parts, (forall q, In q (polygons_of todo) -> south_of c q \/ north_of c q) -> (forall q, In q (polygons_of parts) -> south_of c q \/ north_of c q) ->
    forall q, In q (polygons_of (fold_left (fun parts part => if cr part line then filter (fun g => negb (pe g part)) parts ++ sp part line else parts) todo parts)) -> south_of c q \/ north_of c q).
  { induction todo as [|part todo IH]; intros parts T P q Q; [now apply P|]. cbn [fold_left] in Q. revert q Q. apply IH.
    - intros q Q. apply T, polygons_in. apply polygons_in in Q. destruct Q as (g & G & Q). exists g. split; [now right|exact Q].
    - intros q Q. destruct (cr part line); [|now apply P]. rewrite polygons_app in Q. apply in_app_iff in Q. destruct Q as [Q|Q].
      + apply P, polygons_in. apply polygons_in in Q. destruct Q as (g & G & Q). apply filter_In in G. exists g. tauto.
      + apply polygons_in in Q. destruct Q as (g & G & Q). apply (proj2 (proj2 Hsplits) part line g q c G Q).
        intros p Hp. apply T, polygons_in. exists part. split; [now left|exact Hp]. }
  now apply K.
Qed.
Lemma convert_places l X : places_of cov (geoms (convert_collection l)) X <-> places_of cov (polygons_of l) X.
Proof. apply places_perm. intro q. apply convert_geoms. Qed.
Lemma split_single p line X : places_of cov (polygons_of (sp (PShape (SPoly p)) line)) X <-> places_of cov [p] X.
Proof. apply (places_ext _ [p]). intros x y. rewrite (proj1 Hsplits). reflexivity. Qed.
Lemma split_north_places s t : split_north iv cr pe sp s = Ok t -> forall X, places_of cov (geoms t) X <-> places_of cov (geoms s) X.
Proof.
  apply places_parts. intros p u _ H X. unfold split_north_poly in H. destruct (forallb _ _); [injection H as <-; reflexivity|].
  rewrite (fun K => wrap_north_places _ _ K H).
  - rewrite convert_places, (places_ext _ _ (split_meridian_covers _ _)). apply split_single.
  - intros q Q. apply convert_geoms in Q. revert q Q. apply split_meridian_sides. intros q Q. exact (proj1 (proj2 Hsplits) _ _ _ _ _ Q).
Qed.
Lemma split_south_places s t : split_south iv cr pe sp s = Ok t -> forall X, places_of cov (geoms t) X <-> places_of cov (geoms s) X.
Proof.
  apply places_parts. intros p u _ H X. unfold split_south_poly in H. destruct (forallb _ _); [injection H as <-; reflexivity|].
  rewrite (fun K => wrap_south_places _ _ K H).
  - rewrite convert_places, (places_ext _ _ (split_meridian_covers _ _)). apply split_single.
  - intros q Q. apply convert_geoms in Q. revert q Q. apply split_meridian_sides. intros q Q. exact (proj1 (proj2 Hsplits) _ _ _ _ _ Q).
Qed.
(** The planar polygon that is split along the antimeridian. *)
Definition planar (p : poly) : poly :=
  if no_crossing (map cx (p_ext p)) then p else if so (map cx (p_ext p)) then pole_polygon p else unwrap_poly ss p.
Lemma split_antimeridian_poly_places p u : split_antimeridian_poly iv sp so ss p = Ok u -> forall X, places_of cov (geoms u) X <-> places_of cov [planar p] X.
Proof.
  unfold split_antimeridian_poly, planar. intros H X. destruct (no_crossing _); [injection H as <-; reflexivity|].
  destruct (so _).
  - injection H as <-. now rewrite convert_places, split_single.
  - now rewrite (wrap_antimeridian_places _ _ H), convert_places, split_single.
Qed.
Lemma split_antimeridian_places s t : split_antimeridian iv sp so ss s = Ok t -> forall X, places_of cov (geoms t) X <-> places_of cov (map planar (geoms s)) X.
Proof.
  intros E X. apply over_parts_geoms in E. destruct E as [ts [HT ->]].
  induction HT as [|p u l m Hp HT IH]; [reflexivity|]. cbn [flat_map map]. change (planar p :: map planar l) with ([planar p] ++ map planar l).
  rewrite !places_app, IH, (split_antimeridian_poly_places _ _ Hp). reflexivity.
Qed.
Lemma no_crossing_true lon : no_crossing lon = true -> forall a b, consecutive lon a b -> Rabs (b - a) < 180.
Proof.
  destruct lon as [|x lon]; [intros _ a b ([|? ?] & l2 & E); discriminate|]. cbn. revert x.
  induction lon as [|y lon IH]; intros x H a b C.
  - destruct C as ([|? [|? ?]] & l2 & E); discriminate.
  - cbn in H. apply andb_true_iff in H. destruct H as [H1 H2]. apply consecutive_cons in C. destruct C as [[-> [r E]]|C].
    + injection E as -> ->. now apply Rltb_spec.
    + exact (IH y H2 a b C).
Qed.
Lemma no_crossing_false lon : no_crossing lon = false -> exists a b, consecutive lon a b /\ 180 <= Rabs (b - a).
Proof.
  destruct lon as [|x lon]; [discriminate|]. cbn. revert x. induction lon as [|y lon IH]; intros x H; [discriminate|].
  cbn in H. apply andb_false_iff in H. destruct H as [H|H].
  - exists x, y. split; [now exists [], lon|]. apply Rnot_lt_le. intro L. apply Rltb_spec in L. congruence.
  - destruct (IH y H) as (a & b & C & D). exists a, b. split; [now apply consecutive_skip|exact D].
Qed.
Lemma planar_laid_out p : laid_out (so (map cx (p_ext p))) p (planar p).
Proof.
  unfold laid_out, planar. destruct (no_crossing (map cx (p_ext p))) eqn:E.
  - left. split; [now apply no_crossing_true|reflexivity].
  - right. split; [now apply no_crossing_false|]. destruct (so _); [reflexivity|].
    assert (L : forall l s, length s = length l -> Forall2 same_place l (map (fun q => xy (cx (fst q) - 360 * IZR (snd q)) (cy (fst q))) (combine l s))).
    { induction l as [|c l IH]; intros [|k s] Hl; try discriminate; constructor; [|apply IH; now injection Hl].
      cbn. replace (cx c - 360 * IZR k) with (cx c + 360 * IZR (- k)) by (rewrite opp_IZR; lra). apply globe_turn. }
    assert (LS : length (shifts (map cx (p_ext p))) = length (p_ext p)).
    { destruct (p_ext p) as [|c r]; [discriminate|]. cbn. now rewrite length_cumsum, length_turns, map_length. }
    split; [|split; [|split]].
    + cbn. now apply L.
    + intros a b. assert (EU : map cx (p_ext (unwrap_poly ss p)) = unwrap (map cx (p_ext p))).
      { unfold unwrap, unwrap_poly. cbn. rewrite map_map. cbn. generalize (shifts (map cx (p_ext p))). clear. intro s. revert s.
        induction (p_ext p) as [|c l IH]; intros [|k s]; try reflexivity. cbn. now rewrite IH. }
      rewrite EU. apply unwrap_lemma.
    + intros c r Ep. unfold unwrap_poly. cbn. rewrite Ep. cbn. eexists. f_equal. unfold xy. f_equal. lra.
    + cbn. apply Forall2_map_r. intros i _. apply Forall2_map_r. reflexivity.
Qed.
Lemma coverage_lemma s t : repairs_coverage cov mv -> split_polygon iv mv cr pe sp so ss s = Ok t ->
  exists us, Forall2 (fun p u => laid_out (so (map cx (p_ext p))) p u) (geoms s) us /\ forall X, places_of cov (geoms t) X <-> places_of cov us X.
Proof.
  intros HR H. exists (map planar (geoms s)). split; [apply Forall2_map_r; intros; apply planar_laid_out|]. intro X.
  unfold split_polygon in H. destruct (split_antimeridian iv sp so ss s) as [s1|] eqn:E1; [|discriminate]. cbn in H.
  destruct (split_south iv cr pe sp s1) as [s2|] eqn:E2; [|discriminate]. cbn in H.
  destruct (split_north iv cr pe sp s2) as [s3|] eqn:E3; [|discriminate]. cbn in H.
  rewrite <- (split_antimeridian_places _ _ E1), <- (split_south_places _ _ E2), <- (split_north_places _ _ E3).
  destruct (iv s3); [injection H as <-; reflexivity|]. assert (M := places_ext _ _ (HR s3) X).
  destruct (mv s3) as [l|s4]; injection H as <-; [|exact M]. now rewrite convert_places.
Qed.
End Parts.

(** ** Holes *)
Section Interp.
Variables (w e va vb : R).
Hypothesis WE : w < e.
Definition two_sided (u : R * R) : Prop := (fst u <= w /\ snd u = va) \/ (e <= fst u /\ snd u = vb).
Lemma interp_west x : x <= w -> forall l x0 y0, x0 <= x -> two_sided (x0, y0) -> (forall u, In u l -> two_sided u) ->
  StronglySorted (fun u v => fst u <= fst v) ((x0, y0) :: l) -> (x0 = x \/ exists u, In u l /\ fst u = w) -> interp_from x x0 y0 l = va.
Proof.
  intro XW. induction l as [|[x1 y1] l IH]; intros x0 y0 L T A S I.
  - cbn. destruct T as [[_ T]|[T _]]; cbn in *; [exact T|lra].
  - cbn. inversion S as [|? ? S1 F]; subst. inversion F as [|? ? F1 F2]; subst. cbn in F1.
    destruct (Rleb x1 x) eqn:E1.
    + apply Rleb_spec in E1. apply IH; [exact E1|apply A; now left|intros; apply A; now right|exact S1|].
      destruct I as [I|(u & [<-|U] & I)]; [left; lra|left; cbn in I; lra|right; eauto].
    + destruct (Req_EM_T x0 x) as [E0|E0]; [destruct T as [[_ T]|[T _]]; cbn in *; [exact T|lra]|].
      destruct I as [I|(u & U & I)]; [contradiction|].
      assert (x1 <= w).
      { destruct U as [<-|U]; [cbn in I; lra|]. inversion S1 as [|? ? _ G]; subst. rewrite Forall_forall in G. apply (G u) in U. cbn in U. lra. }
      assert (y1 = va) as ->. { destruct (A (x1, y1) (or_introl eq_refl)) as [[_ K]|[K _]]; cbn in *; [exact K|lra]. }
      assert (y0 = va) as ->. { destruct T as [[_ K]|[K _]]; cbn in *; [exact K|lra]. }
      unfold Rdiv. ring.
Qed.
Lemma interp_east x : e <= x -> forall l x0 y0, x0 <= x -> two_sided (x0, y0) -> (forall u, In u l -> two_sided u) ->
  StronglySorted (fun u v => fst u <= fst v) ((x0, y0) :: l) -> (e <= x0 \/ exists u, In u l /\ fst u = e) -> interp_from x x0 y0 l = vb.
Proof.
  intro XE. induction l as [|[x1 y1] l IH]; intros x0 y0 L T A S I.
  - cbn. destruct I as [I|(u & [] & _)]. destruct T as [[T _]|[_ T]]; cbn in *; [lra|exact T].
  - cbn. inversion S as [|? ? S1 F]; subst. inversion F as [|? ? F1 F2]; subst. cbn in F1.
    destruct (Rleb x1 x) eqn:E1.
    + apply Rleb_spec in E1. apply IH; [exact E1|apply A; now left|intros; apply A; now right|exact S1|].
      destruct I as [I|(u & [<-|U] & I)]; [left; lra|left; cbn in I; lra|right; eauto].
    + assert (N : x < x1). { apply Rnot_le_lt. intro K. apply Rleb_spec in K. congruence. }
      assert (e <= x0).
      { destruct I as [I|(u & U & I)]; [exact I|]. exfalso. destruct U as [<-|U]; [cbn in I; lra|].
        inversion S1 as [|? ? _ G]; subst. rewrite Forall_forall in G. apply (G u) in U. cbn in U. lra. }
      assert (y0 = vb) as ->. { destruct T as [[K _]|[_ K]]; cbn in *; [lra|exact K]. }
      assert (y1 = vb) as ->. { destruct (A (x1, y1) (or_introl eq_refl)) as [[K _]|[_ K]]; cbn in *; [lra|exact K]. }
      destruct (Req_EM_T x0 x); [reflexivity|]. unfold Rdiv. ring.
Qed.
Lemma last_in {A} (l : list A) d x : In (last (x :: l) d) (x :: l).
Proof. revert x. induction l as [|y l IH]; intro x; [now left|]. right. apply IH. Qed.
Lemma last_max (l : list (R * R)) d u : StronglySorted (fun u v => fst u <= fst v) l -> In u l -> fst u <= fst (last l d).
Proof.
  induction 1 as [|x l S IH F]; [easy|]. intros [<-|U].
  - destruct l as [|y l]; [cbn; lra|]. rewrite Forall_forall in F. change (last (x :: y :: l) d) with (last (y :: l) d). apply F, last_in.
  - destruct l as [|y l]; [easy|]. apply IH, U.
Qed.
Lemma np_interp_two l : (forall u, In u l -> two_sided u) -> StronglySorted (fun u v => fst u <= fst v) l ->
  (exists u, In u l /\ fst u = w) -> (exists u, In u l /\ fst u = e) -> forall x, (x <= w -> np_interp x l = va) /\ (e <= x -> np_interp x l = vb).
Proof.
  intros A S (u & U & EU) (v & V & EV) x. destruct l as [|[x0 y0] l]; [easy|]. unfold np_interp.
  assert (LU := last_max _ (x0, y0) _ S U). assert (LV := last_max _ (x0, y0) _ S V).
  assert (LI := A _ (last_in l (x0, y0) (x0, y0))). destruct (last ((x0, y0) :: l) (x0, y0)) as [xn yn]. cbn in LU, LV.
  assert (T0 := A (x0, y0) (or_introl eq_refl)).
  assert (S' := S). inversion S' as [|? ? S1 F]; subst. rewrite Forall_forall in F.
  assert (X0W : x0 <= fst u). { destruct U as [<-|U]; [cbn; lra|apply (F _ U)]. }
  assert (X0E : x0 <= fst v). { destruct V as [<-|V]; [cbn; lra|apply (F _ V)]. }
  split; intro H.
  - destruct (Rltb xn x) eqn:E1; [apply Rltb_spec in E1; lra|].
    destruct (Rltb x x0) eqn:E2; [destruct T0 as [[_ K]|[K _]]; cbn in *; [exact K|lra]|].
    assert (x0 <= x). { apply Rnot_lt_le. intro K. apply Rltb_spec in K. congruence. }
    apply interp_west; try assumption; try (intros; apply A; now right).
    destruct U as [<-|U]; [left; cbn in *; lra|right; eauto].
  - destruct (Rltb xn x) eqn:E1; [destruct LI as [[K _]|[_ K]]; cbn in *; [lra|exact K]|].
    destruct (Rltb x x0) eqn:E2; [apply Rltb_spec in E2; lra|].
    assert (x0 <= x). { apply Rnot_lt_le. intro K. apply Rltb_spec in K. congruence. }
    apply interp_east; try assumption; try (intros; apply A; now right).
    destruct V as [<-|V]; [left; cbn in *; lra|right; eauto].
Qed.
End Interp.
Lemma holes_lemma ss p w e a b : sorts_pairs ss -> w < e ->
  (forall c, In c (p_ext p) -> cx c <= w \/ e <= cx c) -> (exists c, In c (p_ext p) /\ cx c = w) -> (exists c, In c (p_ext p) /\ cx c = e) ->
  turned_ring w e a b (p_ext p) (p_ext (unwrap_poly ss p)) -> Forall2 (turned_ring w e a b) (p_ints p) (p_ints (unwrap_poly ss p)).
Proof.
  intros HS WE HB HW HE HT. cbn. apply Forall2_map_r. intros i _. unfold turned_ring. apply Forall2_map_r. intros c _.
  set (lon := map cx (p_ext p)) in *. destruct (HS (combine lon (map IZR (shifts lon)))) as [HP SO]. set (l := ss _) in *.
  assert (K : forall u, In u l -> two_sided w e (- IZR a) (- IZR b) u).
  { intros u U. apply (Permutation_in _ HP) in U. unfold lon in U. cbn in HT. fold lon in HT. fold lon in U. clear -HT U HB WE. revert HT U. 
    unfold lon at 2. generalize (shifts lon). clear lon. revert HB. induction (p_ext p) as [|d r IH]; intros HB s HT U; [destruct U|].
    destruct s as [|k s]; [destruct U|]. cbn in HT, U. inversion HT as [|? ? ? ? (_ & H1 & H2) HT']; subst. cbn in H1, H2. destruct U as [<-|U].
    - destruct (HB d (or_introl eq_refl)) as [B|B]; [left|right]; cbn; (split; [exact B|]); [specialize (H1 B)|specialize (H2 B)]; lra.
    - apply (IH (fun c C => HB c (or_intror C)) s HT' U). }
  assert (LS : length (shifts lon) = length (p_ext p)).
  { destruct HW as (d & D & _). unfold lon. destruct (p_ext p) as [|d0 r]; [easy|]. cbn. now rewrite length_cumsum, length_turns, map_length. }
  assert (I : forall d, In d (p_ext p) -> exists u, In u l /\ fst u = cx d).
  { intros d D. apply In_nth_error in D. destruct D as [n D]. assert (N : nth_error (combine lon (map IZR (shifts lon))) n <> None).
    { apply nth_error_Some. rewrite combine_length, map_length, LS. unfold lon. rewrite map_length, Nat.min_id. apply nth_error_Some. congruence. }
    destruct (nth_error (combine lon (map IZR (shifts lon))) n) as [[x k]|] eqn:EN; [|congruence]. exists (x, k). split.
    - apply (Permutation_in _ (Permutation_sym HP)). now apply nth_error_In in EN.
    - cbn. assert (G : forall (l1 : list R) (l2 : list R) n x k, nth_error (combine l1 l2) n = Some (x, k) -> nth_error l1 n = Some x).
      { clear. induction l1 as [|y l1 IH]; intros [|z l2] [|n] x k H; try discriminate; cbn in *; [congruence|eauto]. }
      apply G in EN. unfold lon in EN. rewrite (map_nth_error cx _ _ D) in EN. congruence. }
  destruct HW as (dw & DW & <-), HE as (de & DE & <-).
  destruct (np_interp_two (cx dw) (cx de) (- IZR a) (- IZR b) WE l K SO (I _ DW) (I _ DE) (cx c)) as [N1 N2].
  split; [reflexivity|]. cbn. split; intro H; [rewrite (N1 H)|rewrite (N2 H)]; lra.
Qed.

(** ** Concrete cases *)
(** The vertices of a polygon as what it covers, and a splitter that sorts them by side of a parallel. *)
Definition vertex_cov (p : poly) (x y : R) : Prop := exists v, In v (vertices p) /\ cx v = x /\ cy v = y.
Definition keep (f : coord -> bool) (p : poly) : poly := mk_poly (filter f (p_ext p)) (map (filter f) (p_ints p)).
Definition side_split (g : piece) (l : coord * coord) : list piece :=
  match g with
  | PShape (SPoly p) =>
      if Req_EM_T (cy (fst l)) (cy (snd l))
      then [PShape (SPoly (keep (fun v => Rleb (cy v) (cy (fst l))) p)); PShape (SPoly (keep (fun v => Rleb (cy (fst l)) (cy v)) p))] else [g]
  | _ => [g]
  end.
Lemma vertices_map f p : vertices (map_poly f p) = map f (vertices p).
Proof. unfold vertices, map_poly. cbn. now rewrite map_app, concat_map. Qed.
Lemma vertices_keep f p v : In v (vertices (keep f p)) <-> In v (vertices p) /\ f v = true.
Proof.
  unfold vertices, keep. cbn. rewrite !in_app_iff, filter_In.
  assert (K : In v (concat (map (filter f) (p_ints p))) <-> In v (concat (p_ints p)) /\ f v = true).
  { induction (p_ints p) as [|i l IH]; cbn; [tauto|]. rewrite !in_app_iff, filter_In, IH. tauto. }
  rewrite K. tauto.
Qed.
Lemma vertex_moves : moves_coverage vertex_cov.
Proof.
  split.
  - intros k p x y. unfold vertex_cov. rewrite vertices_map. split.
    + intros (v & V & <- & <-). apply in_map_iff in V. destruct V as (u & <- & U). exists u. cbn. repeat split; [exact U|lra].
    + intros (v & V & E1 & E2). exists (xy (cx v + k) (cy v)). split; [apply in_map_iff; eauto|]. cbn. split; lra.
  - intros k c p x y. unfold vertex_cov. rewrite vertices_map. split.
    + intros (v & V & <- & <-). apply in_map_iff in V. destruct V as (u & <- & U). exists u. cbn. repeat split; [exact U|lra|lra].
    + intros (v & V & E1 & E2). exists (xy (cx v + k) (c - cy v)). split; [apply in_map_iff; exists v; split; [reflexivity|exact V]|]. cbn. split; lra.
Qed.
Lemma side_splits : splits_coverage vertex_cov side_split.
Proof.
  assert (T : forall c v, Rleb (cy v) c = true \/ Rleb c (cy v) = true).
  { intros c v. destruct (Rle_or_lt (cy v) c); [left|right]; apply Rleb_spec; lra. }
  split; [|split].
  - intros [[p|l]|] line x y; try reflexivity. unfold side_split. destruct (Req_EM_T _ _); [|reflexivity].
    set (c := cy (fst line)). cbn [polygons_of flat_map geoms app]. split.
    + intros (q & [<-|[<-|[]]] & v & V & E); apply vertices_keep in V; exists p; (split; [now left|]); exists v; tauto.
    + intros (q & [<-|[]] & v & V & E). destruct (T c v) as [H|H].
      * eexists. split; [left; reflexivity|]. exists v. rewrite vertices_keep. tauto.
      * eexists. split; [right; left; reflexivity|]. exists v. rewrite vertices_keep. tauto.
  - intros p a b c q Q. unfold side_split in Q. cbn [fst snd xy cy] in Q. destruct (Req_EM_T c c) as [_|N]; [|congruence].
    cbn [polygons_of flat_map geoms app] in Q. destruct Q as [<-|[<-|[]]]; [left|right]; intros v V; apply vertices_keep in V; now apply Rleb_spec.
  - intros [[p|l]|] line h q c Hh Q H.
    + unfold side_split in Hh. destruct (Req_EM_T _ _); [|destruct Hh as [<-|[]]; now apply H].
      specialize (H p (or_introl eq_refl)). destruct Hh as [<-|[<-|[]]]; destruct Q as [<-|[]];
        (destruct H as [H|H]; [left|right]; intros v V; apply vertices_keep in V; now apply H).
    + destruct Hh as [<-|[]]. now apply H.
    + destruct Hh as [<-|[]]. now apply H.
Qed.
Definition ex_over : poly := mk_poly (box 10 20 80 100) [].
Lemma ex_over_split : exists t, split_polygon (fun _ => true) (fun s => inr s) (fun _ _ => true) (fun _ _ => false) side_split (fun _ => false) (fun l => l) (SPoly ex_over) = Ok t
  /\ places_of vertex_cov (geoms t) (on_globe (xy 10 100)).
Proof.
  destruct (proj2 (split_total_parts (fun _ => true) (fun s => inr s) (fun _ _ => true) (fun _ _ => false) side_split (fun _ => false) (fun l => l) (SPoly ex_over))) as [t E].
  { intros p [<-|[]]. unfold split_polygon, split_antimeridian. cbn [over_parts]. unfold split_antimeridian_poly.
    rewrite no_crossing_spec by (cbn [ex_over p_ext]; apply box_steps; rewrite Rabs_right; lra). cbn [bind]. unfold split_south. cbn [over_parts]. unfold split_south_poly.
    replace (forallb (fun c => Rleb (-90) (cy c)) (p_ext ex_over)) with true.
    2:{ symmetry. apply (fb_spec _ (fun c => -90 <= cy c)); [intro; apply Rleb_spec|]. intros c C. apply box_in in C. lra. }
    cbn [bind]. unfold split_north. cbn [over_parts]. unfold split_north_poly. destruct (forallb _ _); cbn [bind]; [eauto|].
    match goal with |- context [wrap_north ?iv ?s] => destruct (wrap_north_total iv s) as [u ->] end. cbn. eauto. }
  exists t. split; [exact E|].
  assert (QE : equal_coverage vertex_cov (fun _ _ => false)) by (intros g h K; discriminate).
  assert (QR : repairs_coverage vertex_cov (fun s => inr s)) by (intros s x y; reflexivity).
  destruct (coverage_lemma _ _ _ _ _ _ _ vertex_cov vertex_moves side_splits QE _ _ QR E) as (us & HF & HX).
  apply HX. cbn in HF. inversion HF as [|p u l m L N]; subst. inversion N; subst. destruct L as [[_ ->]|[(a & b & C & D) _]].
  - exists 10, 100. split; [|reflexivity]. exists ex_over. split; [now left|]. exists (xy 10 100). split; [|now split]. cbn. tauto.
  - exfalso. assert (K := box_steps 10 20 80 100 ltac:(rewrite Rabs_right; lra) a b C). lra.
Qed.
(** An annulus across the antimeridian. *)
Definition ex_ring : poly := mk_poly (box 170 (-170) 0 10) [box 175 (-175) 2 8].
Lemma insert_sorts : exists ss, sorts_pairs ss.
Proof.
  set (ins := fix ins (c : R * R) (l : list (R * R)) := match l with [] => [c] | d :: r => if Rleb (fst c) (fst d) then c :: l else d :: ins c r end).
  exists (fold_right ins []). assert (IP : forall c l, Permutation (ins c l) (c :: l)).
  { induction l as [|d l IH]; cbn; [reflexivity|]. destruct (Rleb (fst c) (fst d)); [reflexivity|]. rewrite IH. apply perm_swap. }
  intro l. induction l as [|c l [P S]]; cbn; [split; constructor|]. split; [rewrite IP; now constructor|].
  clear P. induction S as [|d r S IH F]; cbn; [repeat constructor|]. destruct (Rleb (fst c) (fst d)) eqn:E.
  - apply Rleb_spec in E. constructor; [now constructor|]. constructor; [exact E|]. eapply Forall_impl; [|exact F]. cbn. intros. lra.
  - assert (fst d <= fst c) by (apply Rleb_false in E; lra). constructor; [exact IH|]. rewrite Forall_forall in *. intros u U. apply (Permutation_in _ (IP c r)) in U. destruct U as [<-|U]; [exact H|now apply F].
Qed.
Lemma ex_ring_lemma ss : sorts_pairs ss -> p_ints (unwrap_poly ss ex_ring) = [box 175 185 2 8].
Proof.
  intro HS. assert (H : Forall2 (turned_ring (-170) 170 1 0) (p_ints ex_ring) (p_ints (unwrap_poly ss ex_ring))).
  { apply holes_lemma; [exact HS|lra| | | |].
    - intros c C. apply box_in in C. destruct C as [[-> | ->] _]; [right|left]; lra.
    - exists (xy (-170) 0). split; [cbn; tauto|reflexivity].
    - exists (xy 170 0). split; [cbn; tauto|reflexivity].
    - unfold turned_ring, unwrap_poly. cbn [p_ext ex_ring]. rewrite ex_shifts. repeat constructor; cbn; intros; lra. }
  remember (p_ints (unwrap_poly ss ex_ring)) as l eqn:EL. assert (PL : forall r, In r l -> forall c, In c r -> cz c = None).
  { intros r Q c C. rewrite EL in Q. cbn in Q. destruct Q as [<-|[]]. cbn in C. destruct C as [<-|[<-|[<-|[<-|[<-|[]]]]]]; reflexivity. }
  clear EL. cbn in H. inversion H as [|? r ? ? H1 H2]; subst. inversion H2; subst. clear H H2. f_equal.
  specialize (PL r (or_introl eq_refl)). unfold turned_ring in H1.
  assert (K : forall c d, (cy d = cy c /\ (cx c <= -170 -> cx d = cx c + 360 * 1) /\ (170 <= cx c -> cx d = cx c + 360 * 0)) -> cz d = None ->
     (cx c = 175 -> d = xy 175 (cy c)) /\ (cx c = -175 -> d = xy 185 (cy c))).
  { intros c [dx dy dz] (A & B & C) Z. cbn in *. subst. split; intro E; unfold xy; f_equal; rewrite E in *; [rewrite C; lra|rewrite B; lra]. }
  unfold box in H1. repeat match goal with U : Forall2 _ (_ :: _) ?m |- _ => inversion U as [|? ? ? ? ? ?]; subst; clear U end.
  match goal with U : Forall2 _ [] _ |- _ => inversion U; subst end.
  repeat match goal with U : cy ?d = cy ?c /\ _ |- _ => apply K in U; [|apply PL; cbn; tauto]; cbn in U; destruct U as [? ?] end.
  unfold box. repeat f_equal; auto.
Qed.
