(** Model of improver/cli/temp_lapse_rate.py, normalise_to_reference.py and wind_downscaling.py, on Model_Lapse, Model_Reference and the plugin of Model_Downscale as an argument. *)
From Verif Require Import Base Model_Nbhood Model_Lapse Model_Reference.
Local Open Scope Q_scope.

(** temp_lapse_rate.py lines 76-111 and lapse_rate.py lines 439-459: [temps] are the temperatures (K) of the realizations, or one field; without a realization dimension numpy.squeeze takes away a dimension of length one, which the coordinates of the new cube then have not. *)
Definition temp_lapse_rate (dry : bool) (p : lapse_params) (h w : Z) (realizations : bool) (temps : list (grid Q)) (orography : option (grid Q)) (land : option (grid bool)) : result (list (grid Q)) :=
  if dry then Ok (map (fun _ _ _ => DALR) temps) else
  if max_lapse_rate p <? min_lapse_rate p then Err ValueError else
  if max_height_diff p <? 0 then Err ValueError else
  if (nbhood_radius p <? 0)%Z then Err ValueError else
  match orography, land with
  | Some o, Some l =>
    let* q := lapse_init p in
    if negb realizations && ((h =? 1) || (w =? 1))%Z then Err ValueError else
    Ok (map (fun t y x => lapse_rate_at q h w t o l y x) temps)
  | _, _ => Err RuntimeError
  end.

(** normalise_to_reference.py lines 56-73: the reference is taken out by its name; what is returned is the output of that name (iris' extract_cube). *)
Definition normalise_command (cubes : list (string * field)) (reference_name return_name : string) (probability ignore_zero : bool) : result field :=
  let '(refs, inputs) := split_by_name cubes (Some [reference_name]) in
  match refs with
  | [r] =>
    let* out := normalise (map snd inputs) (snd r) probability ignore_zero in
    match filter (fun e => String.eqb (fst e) return_name) (combine (map fst inputs) out) with
    | [e] => Ok (snd e)
    | _ => Err ConstraintMismatchError
    end
  | _ => Err ValueError
  end.

Section downscaling.
Context {D : Type}.
(** A wind cube: its levels (height, field), for no realization, for one as a scalar coordinate, or along a dimension. *)
Notation levels := (list (Q * D)).
Inductive wind := Plain (l : levels) | Scalar (r : Z) (l : levels) | Members (m : list (Z * levels)).
(** iris' merge of cubes of one realization each: in order of the realization; the same one twice cannot be merged. *)
Fixpoint put (e : Z * levels) (l : list (Z * levels)) : list (Z * levels) := match l with [] => [e] | f :: r => if (fst e <=? fst f)%Z then e :: l else f :: put e r end.
Definition in_order (l : list (Z * levels)) : list (Z * levels) := fold_right put [] l.
Fixpoint twice (l : list Z) : bool := match l with [] => false | x :: r => existsb (Z.eqb x) r || twice r end.
(** extraction.py: the levels at a height given in other units, [u] taking the height of the cube to those (a * x + b). *)
Definition at_level (u : Q * Q) (level : option Q) (l : levels) : levels := match level with None => l | Some v => filter (fun e => fst u * fst e + snd u =? v) l end.
Definition restrict (u : Q * Q) (level : option Q) (wd : wind) : result wind :=
  let none l := match l : levels with [] => match level with None => false | Some _ => true end | _ => false end in
  match wd with
  | Plain l => let k := at_level u level l in if none k then Err ValueError else Ok (Plain k)
  | Scalar r l => let k := at_level u level l in if none k then Err ValueError else Ok (Scalar r k)
  | Members m => let k := map (fun e => (fst e, at_level u level (snd e))) m in if existsb (fun e => none (snd e)) k then Err ValueError else Ok (Members k)
  end.
(** wind_downscaling.py lines 88-124; [correct] is the plugin on one realization. *)
Definition wind_downscaling (correct : levels -> result levels) (u : Q * Q) (level : option Q) (wd : wind) : result wind :=
  let* done := match wd with
    | Plain l => let* c := correct l in Ok (Plain c)
    | Scalar r l => let* c := correct l in Ok (Members [(r, c)])
    | Members m => let* c := mapM (fun e => let* x := correct (snd e) in Ok (fst e, x)) m in
                   if twice (map fst c) then Err MergeError else match c with [] => Err IndexError | _ => Ok (Members (in_order c)) end
    end in
  restrict u level done.
End downscaling.
