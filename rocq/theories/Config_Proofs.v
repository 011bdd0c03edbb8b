From Coq Require Import String ZArith QArith List Bool Lia.
From Verif Require Import Base Tle_Model Config_Model Config_Spec.
Import ListNotations.
Open Scope Z_scope.

Lemma streqb_eq a b : streqb a b = true <-> a = b.
Proof.
  revert b; induction a as [|x a IH]; intros [|y b]; cbn; try (split; congruence).
  rewrite andb_true_iff, Z.eqb_eq, IH. split; [intros [-> ->]; reflexivity|intro H; injection H; auto].
Qed.
Lemma streqb_refl a : streqb a a = true. Proof. now apply streqb_eq. Qed.

Lemma str_keys_spec l : str_keys l = true <-> Forall (fun kv => exists s, fst kv = YStr s) l.
Proof.
  induction l as [|[k v] l IH]; cbn; [split; auto|].
  split.
  - intro H. destruct k; try discriminate. constructor; [cbn; eauto|now apply IH].
  - intro H. inversion H as [|? ? [s E] H2]; subst. cbn in E. subst k. now apply IH.
Qed.

Lemma lookup_none k l : lookup k l = None <-> no_entry k l.
Proof.
  unfold no_entry. induction l as [|[y v] l IH]; cbn; [tauto|].
  destruct y; try (rewrite IH; split; intros H w; [intros [E|E]; [discriminate|exact (H w E)]|intro E; exact (H w (or_intror E))]).
  destruct (lookup k l) eqn:E.
  - split; [discriminate|]. intro H. exfalso.
    assert (C : Some y = None); [|discriminate]. apply IH. intros w Hw. exact (H w (or_intror Hw)).
  - destruct (streqb k s) eqn:Q.
    + apply streqb_eq in Q; subst s. split; [discriminate|]. intro H. exfalso. exact (H v (or_introl eq_refl)).
    + split; [|reflexivity]. intros _ w [C|C].
      * injection C as -> _. rewrite streqb_refl in Q. discriminate.
      * exact (proj1 IH eq_refl w C).
Qed.

Lemma lookup_some k l v : lookup k l = Some v <-> last_entry k v l.
Proof.
  split.
  - induction l as [|[y u] l IH]; [discriminate|]. cbn. intro H.
    assert (T : lookup k l = Some v -> last_entry k v ((y, u) :: l)).
    { intro E. destruct (IH E) as [a [b [-> N]]]. exists ((y,u) :: a), b. split; [reflexivity|assumption]. }
    destruct y; try (apply T; assumption).
    destruct (lookup k l) eqn:E; [apply T; congruence|].
    destruct (streqb k s) eqn:Q; [|discriminate]. injection H as <-. apply streqb_eq in Q; subst s.
    exists [], l. split; [reflexivity|]. now apply lookup_none.
  - intros [a [b [-> N]]]. induction a as [|[y u] a IH]; cbn.
    + apply lookup_none in N. now rewrite N, streqb_refl.
    + destruct y; try assumption. now rewrite IH.
Qed.

Section P.
Variable str_int : pystr -> option Z.
Variable str_float : pystr -> option num.
Variable str_bool : pystr -> option bool.
Variable int_float : Z -> option num.
Notation construct := (construct str_int str_float str_bool int_float).
Notation construct_doc := (construct_doc str_int str_float str_bool int_float).
Notation load := (load_yaml_config str_int str_float str_bool int_float).
Notation import_rc := (import_rc str_int str_float str_bool int_float).
Notation coerce_int := (coerce_int str_int).
Notation coerce_float := (coerce_float str_float int_float).
Notation coerce_bool := (coerce_bool str_bool).

Lemma andthen_some {A B} (x : option A) (f : A -> option B) y :
  andthen x f = Some y -> exists a, x = Some a /\ f a = Some y.
Proof. destruct x; cbn; [eauto|discriminate]. Qed.

Lemma construct_ok l c : construct l = Ok c ->
  field l k_ellip 32 (fun v => andthen (coerce_int v) (check_ge 4)) = Some (footprint_points_elliptical c) /\
  field l k_side 8 (fun v => andthen (coerce_int v) (check_ge 1)) = Some (footprint_points_rectangular_side c) /\
  field l k_pos (Fin 10000) (fun v => andthen (coerce_float v) check_gt0) = Some (delta_position_m c) /\
  field l k_vel (Fin 10) (fun v => andthen (coerce_float v) check_gt0) = Some (delta_velocity_m_per_s c) /\
  field l k_elev (Fin 88) (fun v => andthen (coerce_float v) check_gt0) = Some (search_elevation_deg c) /\
  field l k_dur (Fin 30) coerce_float = Some (search_duration_days c) /\
  field l k_lazy true coerce_bool = Some (repeat_lazy_load c) /\
  field l k_track true coerce_bool = Some (repeat_for_orbit_track c) /\
  field l k_events true coerce_bool = Some (repeat_for_observation_events c) /\
  field l k_tle true coerce_bool = Some (orbit_tle_lazy_load c).
Proof.
  unfold Config_Model.construct. intro H.
  match type of H with match ?m with _ => _ end = _ => destruct m as [c'|] eqn:E end; [|discriminate].
  injection H as <-.
  repeat match type of E with andthen _ _ = Some _ => 
    apply andthen_some in E; let x := fresh "x" in let F := fresh "F" in destruct E as [x [F E]] end.
  injection E as <-. cbn. repeat split; assumption.
Qed.

Lemma construct_cases l : (exists c, construct l = Ok c) \/ construct l = Raise ValidationError.
Proof.
  unfold Config_Model.construct.
  match goal with |- context [match ?m with Some _ => _ | None => _ end] => destruct m as [c|] end; eauto.
Qed.

Lemma check_ge_some m n k : check_ge m n = Some k -> k = n /\ m <= n.
Proof. unfold check_ge. destruct (Z.leb_spec m n); [intro H0; injection H0 as <-; auto|discriminate]. Qed.

Lemma check_gt0_some x y : check_gt0 x = Some y -> y = x /\ positive x.
Proof.
  destruct x as [q| | |]; cbn; try discriminate; try (intro H; injection H as <-; auto).
  destruct (Qle_bool q 0) eqn:E; [discriminate|]. intro H; injection H as <-. split; [reflexivity|].
  destruct (Qlt_le_dec 0 q) as [?|C]; [assumption|]. apply Qle_bool_iff in C. congruence.
Qed.

Lemma field_int_bound l k d m x : m <= d ->
  field l k d (fun v => andthen (coerce_int v) (check_ge m)) = Some x -> m <= x.
Proof.
  unfold field. intros Hd H. destruct (lookup k l); [|injection H as <-; assumption].
  apply andthen_some in H. destruct H as [a [_ H]]. apply check_ge_some in H. lia.
Qed.

Lemma field_num_bound l k q x : (0 < q)%Q ->
  field l k (Fin q) (fun v => andthen (coerce_float v) check_gt0) = Some x -> positive x.
Proof.
  unfold field. intros Hd H. destruct (lookup k l); [|injection H as <-; assumption].
  apply andthen_some in H. destruct H as [a [_ H]]. apply check_gt0_some in H. destruct H as [-> H]; assumption.
Qed.

Lemma construct_bounds l c : construct l = Ok c -> within_bounds c.
Proof.
  intro H. apply construct_ok in H. destruct H as [H1 [H2 [H3 [H4 [H5 _]]]]].
  repeat split.
  - revert H1. apply field_int_bound. lia.
  - revert H2. apply field_int_bound. lia.
  - revert H3. apply field_num_bound. reflexivity.
  - revert H4. apply field_num_bound. reflexivity.
  - revert H5. apply field_num_bound. reflexivity.
Qed.

Lemma load_bounds f c : load f = Ok c -> within_bounds c.
Proof.
  destruct f; try discriminate. cbn. unfold construct_doc. destruct v; try discriminate.
  destruct (str_keys l); [|discriminate].
  destruct (construct_cases l) as [[c' E]|E]; rewrite E; cbn; [|discriminate].
  intro H; injection H as <-. eapply construct_bounds; eassumption.
Qed.

Lemma default_bounds : within_bounds default_config.
Proof. repeat split; cbn; lia || reflexivity. Qed.

Lemma keyword_doc_cases v : keyword_doc v ->
  (exists c, load (Doc v) = Ok c) \/ load (Doc v) = Raise ConfigError.
Proof.
  intros [l [-> F]]. apply str_keys_spec in F. cbn. rewrite F.
  destruct (construct_cases l) as [[c E]|E]; rewrite E; cbn; eauto.
Qed.

Lemma keyword_doc_dec v : {keyword_doc v} + {~ keyword_doc v}.
Proof.
  destruct v; try (right; intros [l' [E _]]; discriminate).
  destruct (str_keys l) eqn:E.
  - left. exists l. split; [reflexivity|]. now apply str_keys_spec.
  - right. intros [l' [Q F]]. injection Q as <-. apply str_keys_spec in F. congruence.
Qed.

Lemma not_keyword_doc v : ~ keyword_doc v -> load (Doc v) = Raise TypeError.
Proof.
  intro N. cbn. destruct v; try reflexivity. cbn.
  destruct (str_keys l) eqn:E; [|reflexivity].
  exfalso. apply N. exists l. split; [reflexivity|]. now apply str_keys_spec.
Qed.

(** Exactly which file states escape. *)
Lemma load_escape f e : load f = Raise e -> e <> ConfigError ->
  (f = Unopenable /\ e = OSError) \/ (f = Undecodable /\ e = ValueError) \/
  (f = OtherYamlErr /\ e = YamlError) \/
  (exists v, f = Doc v /\ ~ keyword_doc v /\ e = TypeError).
Proof.
  intros H N. destruct f; cbn in H; try (injection H as <-; tauto || congruence).
  right; right; right. exists v. split; [reflexivity|].
  destruct (keyword_doc_dec v) as [K|K].
  - exfalso. destruct (keyword_doc_cases v K) as [[c E]|E]; cbn in E; rewrite H in E;
      [discriminate|injection E as ->; contradiction].
  - split; [assumption|]. pose proof (not_keyword_doc v K) as E. cbn in E. rewrite H in E. now injection E.
Qed.

Lemma load_handled f : (f = Missing \/ f = ParserErr \/ exists v, f = Doc v /\ keyword_doc v) ->
  (exists c, load f = Ok c /\ within_bounds c) \/ load f = Raise ConfigError.
Proof.
  intros [-> | [-> | [v [-> K]]]]; [right; reflexivity|right; reflexivity|].
  destruct (keyword_doc_cases v K) as [[c E]|E]; [left|right; assumption].
  exists c. split; [assumption|]. eapply load_bounds; eassumption.
Qed.

Lemma import_handled f : (f = Missing \/ f = ParserErr \/ exists v, f = Doc v /\ keyword_doc v) ->
  exists c, import_rc f = Ok c /\ within_bounds c /\
    (load f = Ok c \/ (load f = Raise ConfigError /\ c = default_config)).
Proof.
  intro H. unfold Config_Model.import_rc.
  destruct (load_handled f H) as [[c [E B]]|E]; rewrite E.
  - exists c. auto.
  - exists default_config. split; [reflexivity|]. split; [apply default_bounds|auto].
Qed.

Lemma import_bounds f c : import_rc f = Ok c -> within_bounds c.
Proof.
  unfold Config_Model.import_rc. destruct (load f) as [c'|e] eqn:E.
  - intro H; injection H as <-. eapply load_bounds; eassumption.
  - destruct e; try discriminate. intro H; injection H as <-. apply default_bounds.
Qed.

(** Unknown keys have no effect, wherever they occur. *)
Lemma lookup_app_unknown k s v a b : k <> s ->
  lookup k (a ++ (YStr s, v) :: b) = lookup k (a ++ b).
Proof.
  intro N. induction a as [|[y u] a IH]; cbn.
  - destruct (lookup k b); [reflexivity|].
    destruct (streqb k s) eqn:E; [apply streqb_eq in E; contradiction|reflexivity].
  - destruct y; try assumption. now rewrite IH.
Qed.

Lemma str_keys_app_unknown s v a b : str_keys (a ++ (YStr s, v) :: b) = str_keys (a ++ b).
Proof. induction a as [|[y u] a IH]; cbn; [reflexivity|]. destruct y; auto. Qed.

Lemma load_unknown s v a b : ~ is_setting s ->
  load (Doc (YMap (a ++ (YStr s, v) :: b))) = load (Doc (YMap (a ++ b))).
Proof.
  intro N. cbn. rewrite str_keys_app_unknown. destruct (str_keys (a ++ b)); [|reflexivity].
  f_equal. unfold Config_Model.construct, field.
  assert (L : forall k, is_setting k -> lookup k (a ++ (YStr s, v) :: b) = lookup k (a ++ b)).
  { intros k Hk. apply lookup_app_unknown. intros ->. contradiction. }
  unfold is_setting in L.
  rewrite !L by (cbn [map In]; unfold k_ellip, k_side, k_pos, k_vel, k_elev, k_dur, k_lazy, k_track, k_events, k_tle; auto 15). reflexivity.
Qed.

(** Each integer setting comes from its last entry or is the default. *)
Lemma load_settings l c : load (Doc (YMap l)) = Ok c ->
  (forall v, last_entry k_ellip v l -> coerce_int v = Some (footprint_points_elliptical c)) /\
  (no_entry k_ellip l -> footprint_points_elliptical c = 32) /\
  (forall v, last_entry k_side v l -> coerce_int v = Some (footprint_points_rectangular_side c)) /\
  (no_entry k_side l -> footprint_points_rectangular_side c = 8) /\
  (forall v, last_entry k_pos v l -> coerce_float v = Some (delta_position_m c)) /\
  (no_entry k_pos l -> delta_position_m c = Fin 10000) /\
  (forall v, last_entry k_vel v l -> coerce_float v = Some (delta_velocity_m_per_s c)) /\
  (no_entry k_vel l -> delta_velocity_m_per_s c = Fin 10) /\
  (forall v, last_entry k_elev v l -> coerce_float v = Some (search_elevation_deg c)) /\
  (no_entry k_elev l -> search_elevation_deg c = Fin 88) /\
  (forall v, last_entry k_dur v l -> coerce_float v = Some (search_duration_days c)) /\
  (no_entry k_dur l -> search_duration_days c = Fin 30) /\
  (forall v, last_entry k_lazy v l -> coerce_bool v = Some (repeat_lazy_load c)) /\
  (no_entry k_lazy l -> repeat_lazy_load c = true) /\
  (forall v, last_entry k_track v l -> coerce_bool v = Some (repeat_for_orbit_track c)) /\
  (no_entry k_track l -> repeat_for_orbit_track c = true) /\
  (forall v, last_entry k_events v l -> coerce_bool v = Some (repeat_for_observation_events c)) /\
  (no_entry k_events l -> repeat_for_observation_events c = true) /\
  (forall v, last_entry k_tle v l -> coerce_bool v = Some (orbit_tle_lazy_load c)) /\
  (no_entry k_tle l -> orbit_tle_lazy_load c = true).
Proof.
  cbn. destruct (str_keys l); [|discriminate].
  destruct (construct_cases l) as [[c' E]|E]; rewrite E; cbn; [|discriminate].
  intro H; injection H as <-. apply construct_ok in E.
  assert (GI : forall k d m x, field l k d (fun v => andthen (coerce_int v) (check_ge m)) = Some x ->
    (forall v, last_entry k v l -> coerce_int v = Some x) /\ (no_entry k l -> x = d)).
  { intros k d m x F. unfold field in F. split; [intros v L; apply lookup_some in L; rewrite L in F|intro L; apply lookup_none in L; rewrite L in F; congruence].
    apply andthen_some in F. destruct F as [a [A F]]. apply check_ge_some in F. destruct F as [-> _]. assumption. }
  assert (GF : forall k d x, field l k d (fun v => andthen (coerce_float v) check_gt0) = Some x ->
    (forall v, last_entry k v l -> coerce_float v = Some x) /\ (no_entry k l -> x = d)).
  { intros k d x F. unfold field in F. split; [intros v L; apply lookup_some in L; rewrite L in F|intro L; apply lookup_none in L; rewrite L in F; congruence].
    apply andthen_some in F. destruct F as [a [A F]]. apply check_gt0_some in F. destruct F as [-> _]. assumption. }
  assert (GA : forall A k (d : A) conv x, field l k d conv = Some x ->
    (forall v, last_entry k v l -> conv v = Some x) /\ (no_entry k l -> x = d)).
  { intros A k d conv x F. unfold field in F. split; [intros v L; apply lookup_some in L; rewrite L in F; assumption|intro L; apply lookup_none in L; rewrite L in F; congruence]. }
  destruct E as [E1 [E2 [E3 [E4 [E5 [E6 [E7 [E8 [E9 E10]]]]]]]]].
  apply GI in E1, E2. apply GF in E3, E4, E5. apply GA in E6, E7, E8, E9, E10.
  repeat match goal with H : _ /\ _ |- _ => destruct H end.
  repeat (split; [assumption|]). assumption.
Qed.

(** Out-of-range values are reported. *)
Lemma load_rejects_points l n : Forall (fun kv => exists s, fst kv = YStr s) l ->
  last_entry k_ellip (YInt n) l -> n < 4 -> load (Doc (YMap l)) = Raise ConfigError.
Proof.
  intros F L Hn. destruct (keyword_doc_cases (YMap l)) as [[c E]|E]; [exists l; auto| |assumption].
  exfalso. pose proof (load_bounds _ _ E) as B. apply load_settings in E.
  destruct E as [E _]. specialize (E _ L). cbn in E. injection E as E. destruct B as [B _]. lia.
Qed.

Lemma load_defaults : int_float_ok int_float -> load (Doc defaults_yml) = Ok default_config.
Proof.
  intro I. unfold load_yaml_config, defaults_yml. 
  assert (E : forall n, Z.abs n <= 2^53 -> int_float n = Some (Fin (inject_Z n))) by exact I.
  cbn [Config_Model.construct_doc str_keys].
  unfold Config_Model.construct, field.
  repeat match goal with |- context [lookup ?k ?l] => 
    let r := eval vm_compute in (lookup k l) in
    replace (lookup k l) with r by (vm_compute; reflexivity) end.
  cbn [Config_Model.coerce_int Config_Model.coerce_float Config_Model.coerce_bool].
  rewrite !E by lia. reflexivity.
Qed.

End P.

Definition no_str {A} (_ : pystr) : option A := None.
Definition exact_int (n : Z) : option num := Some (Fin (inject_Z n)).
Lemma exact_int_ok : int_float_ok exact_int.
Proof. intros n _. reflexivity. Qed.
Lemma import_default si sf sb jf : int_float_ok jf ->
  import_rc si sf sb jf (Doc defaults_yml) = Ok default_config /\
  import_rc si sf sb jf Missing = Ok default_config /\
  import_rc si sf sb jf ParserErr = Ok default_config.
Proof.
  intro H. split; [|split; reflexivity]. unfold import_rc. now rewrite load_defaults.
Qed.
Lemma typeerror_not_config : TypeError <> ConfigError.
Proof. discriminate. Qed.
Lemma import_scanner_escape : exists f, forall si sf sb jf,
  import_rc si sf sb jf f = Raise YamlError.
Proof. exists OtherYamlErr. reflexivity. Qed.
