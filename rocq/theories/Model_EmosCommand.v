(** Model of improver/cli/apply_emos_coefficients.py (process, lines 124-189) with calibration/__init__.py:225-268 (validity_time_check, add_warning_comment) and 20-94 (split_forecasts_and_truth, for estimate_emos_coefficients.py and the other commands that train).
    The inputs are told apart by [split_coeffs] of Model_Bias.v; resampling is [resample] of Model_Percentiles.v; the calibration itself (ApplyEMOS, Model_Emos.v) and the merging of cubes are arguments. Warnings are not modelled. *)
From Coq Require Import Ascii String.
From Verif Require Import Base Model_Percentiles Model_Reference Model_Bias Model_Attributes Model_Records.
Local Open Scope string_scope.

(** ** apply_emos_coefficients *)
(** What is in a cube: percentiles, with a row for each point; or anything else without a percentile coordinate. *)
Inductive content := InPercentiles (pcts : list Q) (rows : list (list Q)) | NoPercentiles (n : nat).
(** A cube: its name, whether it has a time coordinate and if so the first of its times, its comment (an attribute), its content. *)
Record ecube := { e_name : string; e_when : option Z; e_comment : option string; e_content : content }.
Definition with_comment (c : ecube) (s : string) : ecube := {| e_name := e_name c; e_when := e_when c; e_comment := Some s; e_content := e_content c |}.
Definition with_content (c : ecube) (d : content) : ecube := {| e_name := e_name c; e_when := e_when c; e_comment := e_comment c; e_content := d |}.
Definition warning : string := "Warning: Calibration of this forecast has been attempted, however, no calibration has been applied.".
(** calibration/__init__.py:249-268: an empty comment counts as none. *)
Definition add_warning_comment (c : ecube) : ecube :=
  match e_comment c with
  | Some (String a s) => with_comment c (String a s ++ String newline warning)
  | _ => with_comment c warning
  end.
Definition digit (n : Z) : ascii := ascii_of_nat (48 + Z.to_nat n).
(** calibration/__init__.py:243-246: hours and minutes in two digits each. *)
Definition two_digits (n : Z) : string := String (digit (n / 10)) (String (digit (n mod 10)) "").
Definition stamp (t : Z) : string := two_digits (hour t) ++ two_digits ((t / 60) mod 60).
Definition time_accepted (c : ecube) (times : list string) : result bool :=
  match e_when c with None => Err CoordinateNotFoundError | Some t => Ok (existsb (String.eqb (stamp t)) times) end.
(** The inputs as [split_coeffs] sees them: their identity is their place. *)
Definition numbered (cubes : list ecube) : list icube :=
  map (fun p => {| i_name := e_name (snd p); i_time := match e_when (snd p) with Some _ => true | None => false end; i_id := fst p |}) (combine (seq 0 (List.length cubes)) cubes).
Definition nothing : ecube := {| e_name := ""; e_when := None; e_comment := None; e_content := NoPercentiles 0 |}.
Definition input_of (cubes : list ecube) (i : icube) : ecube := nth (i_id i) cubes nothing.
(** apply_emos_coefficients.py:136, 161: float32 of each string; None is no number. *)
Definition numbers (l : list (option Q)) : result (list Q) := mapM (fun o => match o with Some q => Ok q | None => Err ValueError end) l.
(** 137-139, 162-164: ResamplePercentiles, with the bounds of the diagnostic. *)
Definition resampled (numba warn : bool) (bounds : string -> result (Q * Q)) (c : ecube) (p : list Q) : result ecube :=
  match e_content c with
  | NoPercentiles _ => Err CoordinateNotFoundError
  | InPercentiles pcts rows =>
      if existsb (fun x => (x <? 0)%Q || (100 <? x)%Q) p then Err ValueError else
      let* b := bounds (e_name c) in
      let* (p', out) := resample numba warn false b pcts rows (Some p) None Quantile in
      Ok (with_content c (InPercentiles p' out))
  end.
(** What ApplyEMOS is given. *)
Record emos_input := { em_forecast : ecube; em_coefficients : list ecube; em_fields : list ecube; em_mask : option ecube; em_template : option ecube }.
Section command.
Variables (numba warn : bool) (bounds : string -> result (Q * Q)).
(** ApplyEMOS(percentiles)(...): 175-188. *)
Variable apply_emos : option (list (option Q)) -> emos_input -> result ecube.
(** An argument that is not given, or empty, is not there. *)
Definition present (percentiles : option (list (option Q))) : option (list (option Q)) := match percentiles with Some (p :: l) => Some (p :: l) | _ => None end.
Definition emos_command (mask_name : option string) (times : option (list string)) (percentiles : option (list (option Q))) (cubes : list ecube) : result ecube :=
  (* 124-130 *)
  let* s := split_coeffs mask_name (numbered cubes) in
  let forecast := input_of cubes (r_forecast s) in
  let template := option_map (input_of cubes) (r_template s) in
  (* 132 *)
  let* accepted := match times with None => Ok true | Some l => time_accepted forecast l end in
  if negb accepted then
    (* 133-143 *)
    let* f := match present percentiles with
              | Some l => let* p := numbers l in resampled numba warn bounds forecast p
              | None => Ok (match template with Some t => t | None => forecast end)
              end in
    Ok (add_warning_comment f)
  else match r_coeffs s with
  | [] =>
      (* 145-173 *)
      match template with
      | Some t => Ok (add_warning_comment t)
      | None =>
          let* f := match present percentiles with
                    | Some l => let* p := numbers l in resampled numba warn bounds forecast p
                    | None => Ok forecast
                    end in
          Ok (add_warning_comment f)
      end
  | cs => apply_emos percentiles {| em_forecast := forecast; em_coefficients := map (input_of cubes) cs; em_fields := map (input_of cubes) (r_static s);
                                    em_mask := option_map (input_of cubes) (r_mask s); em_template := template |}
  end.
End command.

(** ** split_forecasts_and_truth *)
(** A cube: its name, its attributes that are strings, its content. *)
Record named_cube (A : Type) := { nc_name : string; nc_attributes : list (string * string); nc_content : A }.
Arguments nc_name {A}. Arguments nc_attributes {A}. Arguments nc_content {A}.
Section split.
Variable A M : Type.
Notation tcube := (named_cube A).
(** calibration/__init__.py:53-57: the name of the diagnostic of a probability cube, otherwise that of the cube. *)
Definition diagnostic (c : tcube) : string := match extract_diagnostic_name (nc_name c) true with Ok n => n | Err _ => nc_name c end.
(** 58: [grouped_cubes.setdefault(name, []).append(cube)]. *)
Fixpoint put (n : string) (c : tcube) (gs : list (string * list tcube)) : list (string * list tcube) :=
  match gs with
  | [] => [(n, [c])]
  | (m, l) :: r => if String.eqb m n then (m, (l ++ [c])%list) :: r else (m, l) :: put n c r
  end.
Definition grouped (cubes : list tcube) : list (string * list tcube) := fold_left (fun gs c => put (diagnostic c) c gs) cubes [].
Definition attribute (k : string) (c : tcube) : option string := option_map snd (find (fun p => String.eqb (fst p) k) (nc_attributes c)).
Definition is_truth (k v : string) (c : tcube) : bool := match attribute k c with Some w => String.eqb w v | None => false end.
(** 79-92; MergeCubes is an argument; IOError is FileNotFound here. *)
Definition truths_and_forecasts (merge : list tcube -> result M) (truth_attribute : string) (cubes : list tcube) : result (M * M) :=
  match split_on "="%char truth_attribute with
  | [k; v] =>
      let truths := filter (is_truth k v) cubes in
      let forecasts := filter (fun c => negb (is_truth k v c)) cubes in
      match truths, forecasts with
      | [], _ | _, [] => Err FileNotFound
      | _, _ => let* t := merge truths in let* f := merge forecasts in Ok (f, t)
      end
  | _ => Err ValueError
  end.
(** 20-94: (forecast, truth, land-sea mask). *)
Definition split_forecasts_and_truth (merge : list tcube -> result M) (truth_attribute : string) (cubes : list tcube) : result (M * M * option tcube) :=
  match grouped cubes with
  | [(_, l)] => let* ft := truths_and_forecasts merge truth_attribute l in Ok (ft, None)
  | [(_, l1); (_, l2)] =>
      (* 66-68: sorted by their number, stably *)
      let (small, large) := if (List.length l1 <=? List.length l2)%nat then (l1, l2) else (l2, l1) in
      match small with
      | [mask] => let* ft := truths_and_forecasts merge truth_attribute large in Ok (ft, Some mask)
      | _ => Err FileNotFound
      end
  | _ => Err ValueError
  end.
End split.
