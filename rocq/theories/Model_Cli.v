(** Model of improver/cli/__init__.py: bracketed arguments, nested commands, wrapped objects, saving the output. *)
From Coq Require Import List Bool String ZArith.
From Verif Require Import Base.
Import ListNotations.
Local Open Scope string_scope.

Inductive tree (A : Type) := Leaf (a : A) | Node (l : list (tree A)).
Arguments Leaf {A} a.
Arguments Node {A} l.

(** lines 432-455 (unbracket).  [out] is the list being built (last first), [stack] the unfinished lists around it, the
    innermost first; [i] the position.  The exception is a ValueError; the number is the position it names. *)
Fixpoint unbracket_from (args : list string) (i : nat) (out : list (tree string)) (stack : list (list (tree string))) : list (tree string) + nat :=
  match args with
  | [] => match stack with [] => inl (rev out) | _ => inr i end
  | a :: r => if String.eqb a "[" then unbracket_from r (S i) [] (out :: stack)
      else if String.eqb a "]" then match stack with [] => inr i | o :: s => unbracket_from r (S i) (Node (rev out) :: o) s end
      else unbracket_from r (S i) (Leaf a :: out) stack
  end.
Definition unbracket (args : list string) : list (tree string) + nat := unbracket_from args 0 [] [].

(** What a command is given and returns: a string, a path, a wrapped object (ObjectAsStr: the name it shows and the
    object, lines 84-113), None, the list that a dry run returns, any other object (with the name that obj_to_name makes). *)
Inductive value := Text (s : string) | Path (s : string) | Wrapped (name : string) (v : value) | NoneV | Args (l : list value) | Object (n : Z) (name : string).
(** lines 102-113 (obj_to_name): a string names itself; the names of None and of lists are not modelled further. *)
Definition name_of (v : value) : string :=
  match v with Text s => s | Wrapped n _ => n | Object _ n => n | NoneV => "<builtins.NoneType>" | Args _ => "<builtins.list>" | Path s => s end.
(** lines 89-96 (ObjectAsStr.__new__). *)
Definition object_as_str (v : value) : value := match v with Wrapped n w => Wrapped n w | _ => Wrapped (name_of v) v end.
(** lines 492-496: what is passed on. *)
Definition pass_on (v : value) : value :=
  match v with Path s => Text s | Text s => Text s | Wrapped n w => Wrapped n w | _ => object_as_str v end.

Section Execute.
Context {St : Type}.
(** The dispatcher: a command with its arguments may have effects (on the state) and returns a value or raises. *)
Variable dispatch : St -> list value -> St * result value.
(** lines 483-511 (execute_command), without printing and timing.  [run_list] is the loop over the arguments, from the
    left; a list is executed as a command of its own when it is reached. *)
Fixpoint run_arg (dry : bool) (t : tree value) (s : St) : St * result value :=
  match t with
  | Leaf v => (s, Ok (pass_on v))
  | Node ts =>
      let run_list := (fix run_list (ts : list (tree value)) (s : St) : St * result (list value) :=
        match ts with
        | [] => (s, Ok [])
        | t :: r => match run_arg dry t s with
            | (s1, Err e) => (s1, Err e)
            | (s1, Ok v) => match run_list r s1 with (s2, Ok vs) => (s2, Ok (v :: vs)) | (s2, Err e) => (s2, Err e) end
            end
        end) in
      match run_list ts s with
      | (s1, Err e) => (s1, Err e)
      | (s1, Ok vs) => if dry then (s1, Ok (pass_on (Args vs))) else match dispatch s1 vs with (s2, Ok v) => (s2, Ok (pass_on v)) | (s2, Err e) => (s2, Err e) end
      end
  end.
Fixpoint run_args (dry : bool) (ts : list (tree value)) (s : St) : St * result (list value) :=
  match ts with
  | [] => (s, Ok [])
  | t :: r => match run_arg dry t s with
      | (s1, Err e) => (s1, Err e)
      | (s1, Ok v) => match run_args dry r s1 with (s2, Ok vs) => (s2, Ok (v :: vs)) | (s2, Err e) => (s2, Err e) end
      end
  end.
Definition execute_command (dry : bool) (args : list (tree value)) (s : St) : St * result value :=
  match run_args dry args s with
  | (s1, Err e) => (s1, Err e)
  | (s1, Ok vs) => if dry then (s1, Ok (Args vs)) else dispatch s1 vs
  end.
Fixpoint texts (t : tree string) : tree value := match t with Leaf s => Leaf (Text s) | Node l => Node (map texts l) end.
(** lines 515-575 (main), without profiling: the arguments after the command are unbracketed. *)
Definition main (dry : bool) (command : string) (args : list string) (s : St) : St * result value :=
  match unbracket args with inl ts => execute_command dry (Leaf (Text command) :: map texts ts) s | inr _ => (s, Err ValueError) end.
End Execute.

(** lines 116-119 (maybe_coerce_with). *)
Definition original (v : value) : value := match v with Wrapped _ w => w | _ => v end.
Definition coerce (converter : string -> result value) (v : value) : result value :=
  match original v with Text s => converter s | w => Ok w end.

(** lines 307-358 (with_output): what is written (file name and value) and what is returned.  [truth] is Python's truth of the result. *)
Definition with_output (truth : value -> bool) (result_ : value) (output : option string) (pass_through : bool) : option (string * value) * value :=
  match output with
  | Some f => if negb (String.eqb f "") && truth result_ then (Some (f, result_), if pass_through then (match result_ with Wrapped n w => Wrapped n w | _ => Wrapped f result_ end) else NoneV) else (None, result_)
  | None => (None, result_)
  end.
