(** C101, C125, C126: configuration loading. *)
From Coq Require Import String ZArith QArith List Bool Lia.
From Verif Require Import Base Tle_Model Config_Model Config_Spec Config_Proofs Config_Proofs2.
Import ListNotations.
Open Scope Z_scope.

(** False as stated: an empty file (null document), and YAML errors that are not
    of class ParserError, escape as other exceptions; at import time too. *)
Theorem c101_load_refuted : exists f e, e <> ConfigError /\
  forall si sf sb jf, load_yaml_config si sf sb jf f = Raise e.
Proof.
  exact (ex_intro _ (Doc YNull) (ex_intro _ TypeError
    (conj typeerror_not_config (fun _ _ _ _ => eq_refl)))).
Qed.
Print Assumptions c101_load_refuted.

Theorem c101_import_refuted : exists f, forall si sf sb jf,
  import_rc si sf sb jf f = Raise YamlError.
Proof. exact import_scanner_escape. Qed.
Print Assumptions c101_import_refuted.

(** What does hold: the escapes are exactly these four kinds of file. *)
Theorem c101_load_escapes_partial : forall si sf sb jf f e,
  load_yaml_config si sf sb jf f = Raise e -> e <> ConfigError ->
  (f = Unopenable /\ e = OSError) \/ (f = Undecodable /\ e = ValueError) \/
  (f = OtherYamlErr /\ e = YamlError) \/
  (exists v, f = Doc v /\ ~ keyword_doc v /\ e = TypeError).
Proof. exact load_escape. Qed.
Print Assumptions c101_load_escapes_partial.

Example c101_escapes_witness :
  load_yaml_config no_str no_str no_str exact_int (Doc (YList [YInt 3])) = Raise TypeError.
Proof. reflexivity. Qed.

Theorem c101_load_handled_partial : forall si sf sb jf f,
  f = Missing \/ f = ParserErr \/ (exists v, f = Doc v /\ keyword_doc v) ->
  (exists c, load_yaml_config si sf sb jf f = Ok c /\ within_bounds c) \/
  load_yaml_config si sf sb jf f = Raise ConfigError.
Proof. exact load_handled. Qed.
Print Assumptions c101_load_handled_partial.

Example c101_handled_witness :
  keyword_doc (YMap [(YStr k_ellip, YInt 3); (YStr k_pos, YBool true)]) /\
  load_yaml_config no_str no_str no_str exact_int
    (Doc (YMap [(YStr k_ellip, YInt 3); (YStr k_pos, YBool true)])) = Raise ConfigError.
Proof.
  split; [|reflexivity]. eexists. split; [reflexivity|]. repeat constructor; cbn; eauto.
Qed.

Theorem c101_load_bounds_partial : forall si sf sb jf f c,
  load_yaml_config si sf sb jf f = Ok c -> within_bounds c.
Proof. exact load_bounds. Qed.
Print Assumptions c101_load_bounds_partial.

Theorem c101_import_bounds_partial : forall si sf sb jf f c,
  import_rc si sf sb jf f = Ok c -> within_bounds c.
Proof. exact import_bounds. Qed.
Print Assumptions c101_import_bounds_partial.

Theorem c101_import_fallback_partial : forall si sf sb jf f,
  f = Missing \/ f = ParserErr \/ (exists v, f = Doc v /\ keyword_doc v) ->
  exists c, import_rc si sf sb jf f = Ok c /\ within_bounds c /\
    (load_yaml_config si sf sb jf f = Ok c \/
     (load_yaml_config si sf sb jf f = Raise ConfigError /\ c = default_config)).
Proof. exact import_handled. Qed.
Print Assumptions c101_import_fallback_partial.

Example c101_bounds_witness : exists c,
  load_yaml_config no_str no_str no_str exact_int
    (Doc (YMap [(YStr k_ellip, YInt 64); (YStr k_pos, YFloat (Fin (5#2))); (YStr k_lazy, YInt 0)])) = Ok c /\
  footprint_points_elliptical c = 64 /\ delta_position_m c = Fin (5#2) /\ repeat_lazy_load c = false.
Proof. eexists. split; [reflexivity|]. repeat split. Qed.

(** C125 *)
Theorem c125_unknown_ignored : forall si sf sb jf s v a b, ~ is_setting s ->
  load_yaml_config si sf sb jf (Doc (YMap (a ++ (YStr s, v) :: b))) =
  load_yaml_config si sf sb jf (Doc (YMap (a ++ b))).
Proof. exact load_unknown. Qed.
Print Assumptions c125_unknown_ignored.

Example c125_unknown_witness : ~ is_setting (lit "repeat_cycle_lazyload"%string).
Proof. unfold is_setting; cbn. intuition discriminate. Qed.

(** Exactly which mappings are accepted, and as which configuration. *)
Theorem c125_settings : forall si sf sb jf l c,
  load_yaml_config si sf sb jf (Doc (YMap l)) = Ok c <-> keyword_doc (YMap l) /\ describes si sf sb jf l c.
Proof. exact load_describes. Qed.
Print Assumptions c125_settings.

Theorem c125_rejected : forall si sf sb jf l, keyword_doc (YMap l) ->
  (load_yaml_config si sf sb jf (Doc (YMap l)) = Raise ConfigError <-> forall c, ~ describes si sf sb jf l c).
Proof. exact load_rejects. Qed.
Print Assumptions c125_rejected.

Example c125_settings_witness : exists c,
  load_yaml_config no_str no_str no_str exact_int
    (Doc (YMap [(YStr k_side, YInt 0); (YStr k_side, YBool true); (YStr k_tle, YBool false)])) = Ok c /\
  footprint_points_rectangular_side c = 1 /\ orbit_tle_lazy_load c = false.
Proof. eexists. split; [reflexivity|]. split; reflexivity. Qed.

Theorem c125_out_of_range : forall si sf sb jf l n,
  Forall (fun kv => exists s, fst kv = YStr s) l ->
  last_entry k_ellip (YInt n) l -> n < 4 ->
  load_yaml_config si sf sb jf (Doc (YMap l)) = Raise ConfigError.
Proof. exact load_rejects_points. Qed.
Print Assumptions c125_out_of_range.

Example c125_range_witness : last_entry k_ellip (YInt 2) [(YStr k_ellip, YInt 8); (YStr k_ellip, YInt 2)].
Proof. exists [(YStr k_ellip, YInt 8)], []. split; [reflexivity|]. intros w []. Qed.

(** C126 *)
Theorem c126_shipped_defaults : forall si sf sb jf, int_float_ok jf ->
  load_yaml_config si sf sb jf (Doc defaults_yml) = Ok default_config.
Proof. exact load_defaults. Qed.
Print Assumptions c126_shipped_defaults.

Example c126_witness : int_float_ok exact_int.
Proof. exact exact_int_ok. Qed.

Theorem c126_import_default : forall si sf sb jf, int_float_ok jf ->
  import_rc si sf sb jf (Doc defaults_yml) = Ok default_config /\
  import_rc si sf sb jf Missing = Ok default_config /\
  import_rc si sf sb jf ParserErr = Ok default_config.
Proof. exact import_default. Qed.
Print Assumptions c126_import_default.
