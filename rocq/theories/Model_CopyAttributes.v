(** Model of improver/utilities/copy_attributes.py (CopyAttributes) with improver/cli/copy_attributes.py, on Model_Attributes, and of improver/cli/collapse_realizations.py on Model_CycleBlend.
    The attributes of the template may be texts or numbers ([inr tt]); those of the cubes are texts. *)
From Verif Require Import Base Model_Probability Model_Manip Model_Attributes Model_CycleBlend.
Local Open Scope string_scope.
Local Open Scope list_scope.

Notation template_attributes := (list (string * (string + unit))).
Fixpoint find_attr (k : string) (l : template_attributes) : option (string + unit) := match l with [] => None | (q, v) :: r => if String.eqb k q then Some v else find_attr k r end.
(** line 50: a dictionary, so that a name given twice counts once. *)
Definition wanted (names : list string) (template : template_attributes) : result (list (string * (string + unit))) :=
  mapM (fun k => match find_attr k template with Some v => Ok (k, v) | None => Err KeyError end) (nodup string_dec names).
(** metadata/amend.py lines 36-56: a value that is not a text is refused by re.match. *)
Fixpoint amend (stamp : string -> string) (a : attributes) (changes : list (string * (string + unit))) : attributes * option err :=
  match changes with
  | [] => (a, None)
  | (k, inl v) :: r => match amend_one stamp a (k, v) with Ok b => amend stamp b r | Err x => (a, Some x) end
  | (_, inr _) :: _ => (a, Some TypeError)
  end.
(** lines 46-52: the cubes afterwards, and the exception if there was one. *)
Fixpoint copy_all (stamp : string -> string) (names : list string) (template : template_attributes) (cubes : list attributes) : list attributes * option err :=
  match cubes with
  | [] => ([], None)
  | a :: r => match wanted names template with
              | Err e => (a :: r, Some e)
              | Ok ch => match amend stamp a ch with
                         | (b, Some e) => (b :: r, Some e)
                         | (b, None) => let (rest, e) := copy_all stamp names template r in (b :: rest, e)
                         end
              end
  end.
Definition copy_attributes (stamp : string -> string) (names : list string) (template : template_attributes) (cubes : list attributes) : list attributes * option err :=
  match cubes with [] => ([], Some ValueError) | _ => copy_all stamp names template cubes end.

(** cli/collapse_realizations.py lines 38-45: [dimension]: realization is a dimension coordinate; the cube is its name and its rows along realization of [n] points each. *)
Definition collapse_command (method : string) (new_name : option string) (n : nat) (dimension : bool) (name : string) (rows : member_rows) : result (string * list (option Q)) :=
  if negb dimension then Err ValueError else
  let* d := collapse_realizations method n rows in
  Ok (match new_name with Some "" | None => name | Some q => q end, d).
