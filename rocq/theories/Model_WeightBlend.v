(** Model of improver/blending/calculate_weights_and_blend.py (WeightAndBlend) and blend_across_adjacent_points.py (TriangularWeightedBlendAcrossAdjacentPoints), on top of Model_Blending.
    Each input is one slice (one point of the blend coordinate); the metadata of the blend (update_blended_metadata, rebadge_forecasts_as_latest_cycle) are modelled elsewhere (Model_Attributes, Model_Times). *)
From Verif Require Model_Probability.
From Verif Require Import Base Model_Blending.
Local Open Scope Q_scope.

(** What weights are looked up by: the name of a model or a point of the blend coordinate. *)
Inductive key := Name (s : string) | Point (q : Q).
Definition key_eqb (a b : key) : bool := match a, b with Name s, Name t => String.eqb s t | Point p, Point q => p =? q | _, _ => false end.
Inductive method := Dict (config : list (key * wconfig)) | Linear (y0 yn : Q) | NonLinear (c : Q) (inverse : bool).

Section data.
Context {D : Type}.
(** [in_model]: the model named by the attribute; [in_point]: the point of the blend coordinate; [in_lead]: the value of the weighting coordinate (in the units of the configuration). *)
Record input := { in_model : option string; in_point : Q; in_lead : Q; in_time : Z; in_data : D }.
Record slice := { sl_point : Q; sl_key : key; sl_lead : Q; sl_time : Z; sl_data : D }.

(** weighted_blend.py lines 88-132 (_create_model_coordinates): models are numbered by thousands in the order of the inputs. *)
Fixpoint number_models (k : nat) (seen : list string) (l : list input) : result (list slice) :=
  match l with
  | [] => Ok []
  | x :: r => match in_model x with
              | None => Err ValueError
              | Some s => if existsb (String.eqb s) seen then Err ValueError
                          else let* t := number_models (S k) (s :: seen) r in
                               Ok ({| sl_point := inject_Z (1000 * Z.of_nat k); sl_key := Name s; sl_lead := in_lead x; sl_time := in_time x; sl_data := in_data x |} :: t)
              end
  end.
(** iris' merge: the points of the blend coordinate in increasing order; equal points are refused. *)
Definition by_point (s : slice) : Q * slice := (sl_point s, s).
Fixpoint distinct_b (l : list Q) : bool := match l with [] => true | x :: r => negb (existsb (Qeq_bool x) r) && distinct_b r end.
(** lines 153-218 (MergeCubesForWeightedBlending.process). *)
Definition merged (model : bool) (l : list input) : result (list slice) :=
  match l with
  | [] => Err ValueError
  | _ => if model then number_models 0 [] l
         else let s := map (fun x => {| sl_point := in_point x; sl_key := Point (in_point x); sl_lead := in_lead x; sl_time := in_time x; sl_data := in_data x |}) l in
              if distinct_b (map sl_point s) then Ok (map snd (ksort (map by_point s))) else Err MergeError
  end.

(** calculate_weights_and_blend.py lines 114-146 (_calculate_blending_weights): one weight per slice, in their order. *)
Definition dict_weight (config : list (key * wconfig)) (s : slice) : result Q :=
  match find (fun e => key_eqb (fst e) (sl_key s)) config with
  | Some e => Ok (config_weight (snd e) (sl_lead s))
  | None => Err KeyError
  end.
Definition blending_weights (m : method) (l : list slice) : result (list Q) :=
  match m with
  | Dict config => let* _ := check_config (map snd config) in let* w := mapM (dict_weight config) l in normalise_weights w
  | Linear y0 yn => linear_weights y0 yn (length l)
  | NonLinear c inverse => let* w := nonlinear_process c (map sl_point l) inverse in Ok (map snd w)
  end.
(** lines 176-205 (_remove_zero_weighted_slices). *)
Definition nonzero_weighted (l : list (slice * Q)) : list (slice * Q) := filter (fun e => negb (snd e =? 0)) l.
(** lines 207-335 (process), with [blend] for the blending of what is left (at least two); [model_id], [record]: is the attribute given. *)
Definition weight_and_blend (blend : list (slice * Q) -> result D) (m : method) (model model_id record : bool) (l : list input) : result D :=
  if record && negb model_id then Err ValueError else
  if model && negb model_id then Err ValueError else
  let* c := merged model l in
  match c with
  | [s] => Ok (sl_data s)
  | _ => let* w := blending_weights m c in
         match nonzero_weighted (combine c w) with
         | [(s, _)] => Ok (sl_data s)
         | kept => blend kept
         end
  end.
End data.
Arguments input : clear implicits.
Arguments slice : clear implicits.

(** lines 315-317 with weighted_blend.py lines 615-730: means of [n] grid points with None masked. *)
Definition blend_means (n : nat) (l : list (slice (list (option Q)) * Q)) : result (list (option Q)) :=
  blend_process false n (map (fun e => (sl_point (fst e), (sl_time (fst e), sl_data (fst e)))) l) (Some (map (fun e => (sl_point (fst e), repeat (snd e) n)) l)).
(** lines 148-174 and 306-307: weights that vary in space; [distance] is that of a grid point from the masked area of a slice (Model_Blending.spatial_weights). *)
Definition transposed (n : nat) (rows : list (list Q)) (k : nat) : list (list Q) := map (fun i => map (fun g => nth i (nth g rows []) 0) (seq 0 n)) (seq 0 k).
Definition is_masked (v : option Q) : bool := match v with None => true | Some _ => false end.
Definition blend_means_spatially (len : Q) (distance : slice (list (option Q)) -> nat -> option Q) (n : nat) (l : list (slice (list (option Q)) * Q)) : result (list (option Q)) :=
  let at_grid g := spatial_weights len (map snd l) (map (fun e => is_masked (nth g (sl_data (fst e)) None)) l) (map (fun e => distance (fst e) g) l) in
  blend_process false n (map (fun e => (sl_point (fst e), (sl_time (fst e), sl_data (fst e)))) l)
    (Some (combine (map (fun e => sl_point (fst e)) l) (transposed n (map at_grid (seq 0 n)) (length l)))).
(** weighted_blend.py lines 579-613: percentiles [ps] of [n] grid points. *)
Definition blend_percentile_slices (timeblending : bool) (ps : list Q) (n : nat) (l : list (slice (list (list Q)) * Q)) : result (list (list Q)) :=
  let l := map snd (ksort (map (fun e => (sl_point (fst e), e)) l)) in
  let* _ := check_times timeblending (map (fun e => sl_time (fst e)) l) in
  let w := norm_cols (repeat (map snd l) n) in
  aggregate (map (fun g => (map (fun e => nth g (sl_data (fst e)) []) l, nth g w [])) (seq 0 n)) ps.

(** lines 94-146 and 287-288: an instance keeps the name of its blend coordinate, which a call may replace; only whether it contains "model" matters. *)
Definition model_blend_coord : string := "model_id".
Definition call {D} (blend : list (slice D * Q) -> result D) (m : method) (model_id record : bool) (coord : string) (l : list (input D)) : string * result D :=
  let model := Model_Probability.contains "model" coord in
  (if negb (record && negb model_id) && negb (model && negb model_id) && match merged model l with Ok _ => true | Err _ => false end && model then model_blend_coord else coord,
   weight_and_blend blend m model model_id record l).

(** * blend_across_adjacent_points.py
    [convert]: the conversion from the units of the parameters to those of the coordinate (x -> a x + b). *)
Definition convert (u : option (Q * Q)) (x : Q) : Q := match u with Some (a, b) => a * x + b | None => x end.
(** lines 88-122 (_find_central_point). Several slices at the point keep their dimension, which the result of the blend has not. *)
Definition central {D} (p : Q) (cube : list (slice D)) : result (slice D) :=
  match filter (fun s => sl_point s =? p) cube with [s] => Ok s | _ => Err ValueError end.
(** lines 124-149 (process): the metadata (here the time) of the slice at the central point and the blended data. *)
Definition triangular_blend {D} (blend : list (slice D * Q) -> result D) (u : option (Q * Q)) (point width : Q) (cube : list (slice D)) : result (slice D) :=
  let* s := central (convert u point) cube in
  let* w := triangular_weights (map sl_point cube) (convert u point) (convert u width) in
  let* d := blend (combine cube w) in
  Ok {| sl_point := sl_point s; sl_key := sl_key s; sl_lead := sl_lead s; sl_time := sl_time s; sl_data := d |}.
Definition blend_means_over_time (n : nat) (l : list (slice (list (option Q)) * Q)) : result (list (option Q)) :=
  blend_process true n (map (fun e => (sl_point (fst e), (sl_time (fst e), sl_data (fst e)))) l) (Some (map (fun e => (sl_point (fst e), repeat (snd e) n)) l)).
