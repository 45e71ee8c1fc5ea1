(** Model of the reading of constraints in improver/utilities/cube_extraction.py lines 17-153 (parse_range_string_to_dict, parse_constraint_list) and of improver/cli/extract.py, on Model_Extract.
    Python's float(), int() and ast.literal_eval are arguments; a SyntaxError is given as RuntimeError.  Literals that are not numbers or lists of numbers (tuples, booleans, quoted texts), the keywords of iris.Constraint
    (name, cube_func, coord_values) and the extraction by longitude or by text are not modelled. *)
From Coq Require Import Ascii String.
From Verif Require Import Base Model_Extract.
Local Open Scope string_scope.
Local Open Scope list_scope.
Local Open Scope Q_scope.

Notation chars := list_ascii_of_string.
Notation str := string_of_list_ascii.
(** str.split(c, 1): None when the character is missing. *)
Fixpoint cut (c : ascii) (l : list ascii) : option (list ascii * list ascii) :=
  match l with [] => None | a :: r => if Ascii.eqb a c then Some ([], r) else option_map (fun p => (a :: fst p, snd p)) (cut c r) end.
(** str.split(c). *)
Fixpoint split (c : ascii) (l : list ascii) : list (list ascii) :=
  match l with
  | [] => [[]]
  | a :: r => if Ascii.eqb a c then [] :: split c r else match split c r with p :: q => (a :: p) :: q | [] => [[a]] end
  end.
(** str.strip(" "). *)
Fixpoint lstrip (l : list ascii) : list ascii := match l with a :: r => if Ascii.eqb a " " then lstrip r else l | [] => [] end.
Definition strip (l : list ascii) : list ascii := rev (lstrip (rev (lstrip l))).
Definition has (c : ascii) (l : list ascii) : bool := existsb (fun a => Ascii.eqb a c) l.

Inductive literal := Unreadable | Malformed | Numbers (l : list Q) | Other.
Record reader := { r_float : string -> option Q; r_int : string -> option Z; r_literal : string -> literal }.
(** What one text means: a test of the values of a coordinate, a range of longitude, or a text to be compared with. *)
Inductive item := Test (k : string) (t : test) | Longitude (a b : Q) (step : option Z) | Text (k v : string).
(** lines 17-29 and 115-132. *)
Definition range_parts (v : list ascii) : list (list ascii) := split ":" (filter (fun a => negb (Ascii.eqb a "[") && negb (Ascii.eqb a "]"))%bool v).
Definition read_step (r : reader) (rest : list (list ascii)) : result (option Z) :=
  match rest with
  | [] | [] :: _ => Ok None
  | s :: _ => match r_int r (str s) with Some z => Ok (Some z) | None => Err ValueError end
  end.
Definition read_range (r : reader) (k : string) (v : list ascii) : result item :=
  match range_parts v with
  | a :: b :: rest => match r_float r (str a), r_float r (str b) with
                      | Some x, Some y => let* s := read_step r rest in Ok (if String.eqb k "longitude" then Longitude x y s else Test k (Range x y s))
                      | _, _ => Err ValueError
                      end
  | _ => Err KeyError
  end.
(** lines 107-139. *)
Definition parse_one (r : reader) (s : string) : result item :=
  match cut "=" (chars s) with
  | None => Err ValueError
  | Some (k, v) =>
    let k := str (strip k) in let v := strip v in
    if has ":" v then read_range r k v else
    match r_literal r (str v) with
    | Unreadable => Ok (Text k (str v))
    | Malformed => Err RuntimeError
    | Numbers l => Ok (Test k (Values l))
    | Other => Err NotImplementedError
    end
  end.
(** lines 141-142: str.capitalize() is "None". *)
Definition lower (a : ascii) : ascii := let n := nat_of_ascii a in if ((65 <=? n) && (n <=? 90))%nat then ascii_of_nat (n + 32) else a.
Definition none_like (u : string) : bool := String.eqb (str (map lower (chars u))) "none".
Definition key_of (s : string) : string := match cut "=" (chars s) with Some (k, _) => str (strip k) | None => "" end.
Definition put {A} (k : string) (v : A) (d : list (string * A)) : list (string * A) := (k, v) :: filter (fun e => negb (String.eqb (fst e) k)) d.
Fixpoint units_dict (l : list (string * option string)) (d : list (string * string)) : list (string * string) :=
  match l with
  | [] => d
  | (s, u) :: r => units_dict r (match u with Some u => if none_like u then d else put (key_of s) (str (strip (chars u))) d | None => d end)
  end.
(** lines 92-153. *)
Definition parse_list (r : reader) (constraints : list string) (units : option (list (option string))) : result (list item * option (list (string * string))) :=
  match units with
  | None => let* l := mapM (parse_one r) constraints in Ok (l, None)
  | Some us => if negb (length us =? length constraints)%nat then Err ValueError else
               let* l := mapM (parse_one r) constraints in Ok (l, Some (units_dict (combine constraints us) []))
  end.
(** cli/extract.py lines 57-59; [conversions] finds the conversion of a coordinate into units. *)
Definition tests (l : list item) : result (list (string * test)) := mapM (fun i => match i with Test k t => Ok (k, t) | _ => Err NotImplementedError end) l.
Definition command (r : reader) (conversions : string -> string -> result conversion) (constraints : list string) (units : option (list (option string))) (ignore_failure : bool) (c : cube) : result cube :=
  let* (l, us) := parse_list r constraints units in
  let* cs := tests l in
  let* us := match us with None => Ok None | Some d => let* d := mapM (fun e => let* u := conversions (fst e) (snd e) in Ok (fst e, u)) d in Ok (Some d) end in
  extract_process cs us true ignore_failure c.
