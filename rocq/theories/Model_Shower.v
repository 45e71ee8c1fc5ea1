(** Model of improver/precipitation_type/utilities.py (make_shower_condition_cube), improver/cli/remake_as_shower_condition.py, and metadata/probabilistic.py lines 128-165 (find_threshold_coordinate) as they use it.
    A cube is its name, its coordinates and its data; [tc_name] is what coord.name() gives.  Simplified: the cube's own var_name, units and attributes are not modelled (nothing here changes the last two). *)
From Verif Require Import Base.
Local Open Scope string_scope.
Local Open Scope list_scope.

(** [tc_relation]: the attribute spp__relative_to_threshold of the coordinate. *)
Record tcoord := { tc_name : string; tc_var : option string; tc_points : list Q; tc_units : string; tc_relation : option string }.
Record tcube (A : Type) := { tq_name : string; tq_coords : list tcoord; tq_data : A }.
Arguments tq_name {A}. Arguments tq_coords {A}. Arguments tq_data {A}.
(** The places of the coordinates with a property, in order. *)
Fixpoint places (p : tcoord -> bool) (k : nat) (l : list tcoord) : list nat := match l with [] => [] | c :: r => if p c then k :: places p (S k) r else places p (S k) r end.
Definition named (s : string) (c : tcoord) : bool := String.eqb (tc_name c) s.
Definition var_named (s : string) (c : tcoord) : bool := match tc_var c with Some v => String.eqb v s | None => false end.
(** metadata/probabilistic.py lines 152-165: cube.coord refuses a name that none or several coordinates have; failing that, the first coordinate with the var_name. *)
Definition find_threshold (l : list tcoord) : option nat :=
  match places (named "threshold") 0 l with
  | [i] => Some i
  | _ => match places (var_named "threshold") 0 l with i :: _ => Some i | [] => None end
  end.
Fixpoint change (i : nat) (f : tcoord -> tcoord) (l : list tcoord) : list tcoord := match l, i with [], _ => [] | c :: r, O => f c :: r | c :: r, S k => c :: change k f r end.
(** line 60: renaming a coordinate also clears its var_name. *)
Definition renamed (s : string) (c : tcoord) : tcoord := {| tc_name := s; tc_var := None; tc_points := tc_points c; tc_units := tc_units c; tc_relation := tc_relation c |}.
(** lines 61-63. *)
Definition as_shower (c : tcoord) : tcoord := {| tc_name := tc_name c; tc_var := Some "threshold"; tc_points := [1%Q]; tc_units := "1"; tc_relation := tc_relation c |}.
Section made.
Context {A : Type}.
Definition with_name (s : string) (c : tcube A) : tcube A := {| tq_name := s; tq_coords := tq_coords c; tq_data := tq_data c |}.
Definition with_coords (l : list tcoord) (c : tcube A) : tcube A := {| tq_name := tq_name c; tq_coords := l; tq_data := tq_data c |}.
(** lines 43-63: what the cube worked on is afterwards, and the exception if there was one.  Line 61 asks for the coordinate by its new name, which fails if another coordinate has that name already. *)
Definition make (c : tcube A) : tcube A * option err :=
  let c1 := with_name "probability_of_shower_condition_above_threshold" c in
  match find_threshold (tq_coords c1) with
  | None => (c1, Some CoordinateNotFoundError)
  | Some i =>
      match map tc_points (firstn 1 (skipn i (tq_coords c1))) with
      | [[_]] =>
          let c2 := with_coords (change i (renamed "shower_condition") (tq_coords c1)) c1 in
          match places (named "shower_condition") 0 (tq_coords c2) with
          | [j] => (with_coords (change j as_shower (tq_coords c2)) c2, None)
          | _ => (c2, Some CoordinateNotFoundError)
          end
      | _ => (c1, Some ValueError)
      end
  end.
(** lines 40-41 and 65: the value of the call, and the argument afterwards. *)
Definition make_shower_condition_cube (in_place : bool) (c : tcube A) : result (tcube A) * tcube A :=
  let (d, e) := make c in (match e with None => Ok d | Some x => Err x end, if in_place then d else c).
(** cli/remake_as_shower_condition.py line 36. *)
Definition remake_as_shower_condition (c : tcube A) : result (tcube A) := fst (make_shower_condition_cube false c).
End made.
