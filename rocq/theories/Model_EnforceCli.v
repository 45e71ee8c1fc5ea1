(** Model of improver/cli/enforce_consistent_forecasts.py (lines 77-112), on top of Model_Reference.
    A cube is its names (standard, long and variable name, those it has), its values in C order, whether it is a probability and [c_units]: its units; units that differ are taken as not convertible. *)
From Verif Require Import Base Model_Reference.
Local Open Scope Q_scope.

Record ccube := { c_names : list string; c_values : list Q; c_probability : bool; c_units : string }.
(** lines 77-91. *)
Definition arguments (adds muls : list Q) (cmps : list string) (warn : option Q) : result enforcer :=
  if ((length adds =? length muls) && (length muls =? length cmps) && (length cmps <? 3))%nat then
    match adds, muls, cmps with
    | [a], [m], [c] => Ok {| e_add := One a; e_mul := One m; e_cmp := One c; e_warn := warn |}
    | _, _, _ => Ok {| e_add := Many adds; e_mul := Many muls; e_cmp := Many cmps; e_warn := warn |}
    end
  else Err ValueError.
(** iris: CubeList.extract_cube(name), a name being any of the three; without a name every cube matches. *)
Definition matches (ref_name : option string) (c : ccube) : bool := match ref_name with None => true | Some n => existsb (String.eqb n) (c_names c) end.
(** lines 93-112; the reference is removed from the list (where the other cube is equal to it both match and are refused before). *)
Definition enforce_consistent_forecasts (cubes : list ccube) (ref_name : option string) (adds muls : list Q) (cmps : list string) (warn : option Q) : result (list Q * bool) :=
  let* e := arguments adds muls cmps warn in
  match cubes with
  | [a; b] => let run f r := enforce e (String.eqb (c_units f) (c_units r)) (c_probability f) (c_values f) (c_values r) in
              match matches ref_name a, matches ref_name b with
              | true, false => run b a
              | false, true => run a b
              | _, _ => Err ConstraintMismatchError
              end
  | _ => Err ValueError
  end.
