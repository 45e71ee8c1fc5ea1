(** The metadata standard that the interpreter enforces, rule by rule. Only the shape of cubes, the lists of names and the pattern of probability names (C79) come from the model. *)
From Coq Require Import Ascii String.
From Verif Require Import Base Model_Records Model_Attributes Model_Interpret Props_Naming.
Local Open Scope string_scope.

Section spec.
Variable c : cube.
Definition has (k : string) : Prop := exists x, In x (c_coords c) /\ co_name x = k.
Definition value (k v : string) : Prop := In (k, v) (c_attributes c).
(** As iris sees to: one coordinate of a name, one value of an attribute. *)
Definition well_formed : Prop := NoDup (map co_name (c_coords c)) /\ NoDup (map fst (c_attributes c)).

(** ** Kinds *)
Definition ancillary : Prop := In (c_name c) ancillaries.
(** Nothing is checked. *)
Definition exempt : Prop := In (c_name c) intermediates.
Definition is_percentile (x : coordinate) : Prop := occurs "percentile" (co_name x).
Definition is_threshold (x : coordinate) : Prop := co_var x = Some "threshold".
Definition standard : Prop := ~ ancillary /\ ~ exempt /\ c_name c <> "weather_code" /\ c_name c <> "wind_from_direction".
Definition named_probability : Prop := occurs "probability" (c_name c) /\ occurs "threshold" (c_name c).
Definition percentiles : Prop := standard /\ ~ named_probability /\ exists x, In x (c_coords c) /\ is_percentile x.
Definition probabilities : Prop := standard /\ (named_probability \/ ~ percentiles /\ exists x, In x (c_coords c) /\ is_threshold x).
Definition realizations : Prop := standard /\ ~ percentiles /\ ~ probabilities.
(** The diagnostic: of probabilities, that named in the name. *)
Definition diagnostic (d : string) : Prop := (probabilities /\ extract_diagnostic_name (c_name c) false = Ok d) \/ (~ probabilities /\ c_name c = d).

(** ** Rules *)
Definition relation_word (r w : string) : Prop :=
  (r = "greater_than" \/ r = "greater_than_or_equal_to") /\ w = "above" \/ (r = "less_than" \/ r = "less_than_or_equal_to") /\ w = "below" \/ r = "between_thresholds" /\ w = "between".
Definition probability_rule : Prop := probabilities -> c_units c = "1" /\
  exists d x r w, extract_diagnostic_name (c_name c) false = Ok d /\ In x (c_coords c) /\ co_name x = d /\ is_threshold x /\ co_relative x = Some r /\ relation_word r w /\ occurs w (c_name c).
Definition percentile_rule : Prop := percentiles -> exists x, In x (c_coords c) /\ co_name x = "percentile" /\ co_units x = "%" /\ forall y, In y (c_coords c) -> is_percentile y -> y = x.
Definition mode_over (hours : string) (m : cell_method) : Prop := m = {| cm_method := "mode"; cm_coords := ["time"]; cm_intervals := [hours]; cm_comments := [] |}.
Definition mean_over (k : string) : cell_method := {| cm_method := "mean"; cm_coords := [k]; cm_intervals := []; cm_comments := [] |}.
Definition sum_over_time (m : cell_method) : Prop := cm_method m = "sum" /\ cm_coords m = ["time"].
Definition recognised (m : cell_method) : Prop := In (cm_method m) ["min"; "max"; "minimum"; "maximum"; "sum"].
Definition method_rule : Prop :=
  (ancillary -> c_methods c = []) /\
  (c_name c = "weather_code" -> forall m, In m (c_methods c) -> mode_over "1 hour" m \/ mode_over "3 hour" m) /\
  (c_name c = "wind_from_direction" -> c_methods c = [] \/ c_methods c = [mean_over "realization"]) /\
  (standard -> (forall a, In a accumulations -> occurs a (c_name c) -> exists m, In m (c_methods c) /\ sum_over_time m) /\
    forall m, In m (c_methods c) ->
      (recognised m -> cm_coords m <> [] /\ (In "time" (cm_coords m) -> exists x, In x (c_coords c) /\ co_name x = "time" /\ co_bounds x <> None) /\
         (probabilities -> exists d t rest, diagnostic d /\ cm_comments m = t :: rest /\ exists more, t = "of " ++ d ++ more)) /\
      cm_method m <> "point" /\ cm_method m <> "weighted_mean" /\ ~ In m (map mean_over ["forecast_reference_time"; "model_id"; "model_configuration"; "realization"])).
Definition attribute_rule : Prop :=
  (forall k v, value k v -> ~ In k forbidden_attributes) /\
  (diagnostic "weather_code" -> (exists v, value "weather_code" v) /\ exists v, value "weather_code_meaning" v) /\
  (diagnostic "wind_gust" -> exists v, value "wind_gust_diagnostic" v) /\
  (~ ancillary -> forall k, In k ["title"; "source"; "institution"] -> exists v, value k v).
Definition blend : Prop := exists t, value "title" t /\ occurs "IMPROVER Post-Processed Multi-Model Blend" t.
(** The models of a blend are known ones, and each has a run. *)
Definition blend_rule : Prop := ~ ancillary -> blend -> exists ids runs, value "mosg__model_configuration" ids /\ value "mosg__model_run" runs /\
  (forall line, In line (split_on newline runs) -> exists a b w, split_on colon line = [a; b; w]) /\
  forall code, In code (split_words ids) -> In code ["nc_det"; "gl_det"; "gl_ens"; "uk_ens"; "uk_det"] /\ exists line b w, In line (split_on newline runs) /\ split_on colon line = [code; b; w].
(** The model of anything else, if one is given, is a known one, and the title names no other. *)
Definition model_rule : Prop := ~ ancillary -> ~ blend -> forall id, value "mosg__model_configuration" id -> exists n, In (id, n) model_names /\ forall t code m, value "title" t -> In (code, m) model_names -> occurs (m ++ " Model") t -> code = id.
Definition spot_rule : Prop := has "spot_index" -> (forall t, value "title" t -> occurs "Spot Values" t) /\ (forall k, In k ["latitude"; "longitude"; "altitude"; "wmo_id"] -> has k) /\
  exists y x dy dx, filter (is_axis AxisY) (c_coords c) = [y] /\ filter (is_axis AxisX) (c_coords c) = [x] /\ hd_error (co_dims y) = Some dy /\ hd_error (co_dims x) = Some dx /\
    forall k, In k (c_coords c) -> In (co_name k) spot_coords -> forall d, In d (co_dims k) <-> d = dy \/ d = dx.
Definition time_rule : Prop := ~ ancillary -> (blend -> has "time" /\ has "blend_time") /\ (~ blend -> has "time" /\ has "forecast_period" /\ has "forecast_reference_time").
Definition bounds_rule : Prop := forall x b, In x (c_coords c) -> co_name x = "time" \/ co_name x = "forecast_period" -> co_bounds x = Some b -> forall p lo hi, In (p, (lo, hi)) (combine (co_points x) b) -> p = hi.
Definition ensemble_rule : Prop := realizations -> forall x id, In x (c_coords c) -> co_name x = "realization" -> value "mosg__model_configuration" id -> ~ occurs "ens" id -> (length (co_points x) <= 1)%nat.
Definition compliant : Prop :=
  probability_rule /\ percentile_rule /\ method_rule /\ attribute_rule /\ blend_rule /\ model_rule /\ spot_rule /\ time_rule /\ bounds_rule /\ c_standard c = true /\ ensemble_rule.
End spec.
