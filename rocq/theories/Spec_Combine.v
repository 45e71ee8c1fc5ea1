(** Specification for C46. *)
From Verif Require Import Base Model_Reference Model_Combine.
Local Open Scope Q_scope.

(** All values if none is masked; the values that are not masked. *)
Fixpoint all_present (l : list (option Q)) : option (list Q) :=
  match l with [] => Some [] | Some x :: r => option_map (cons x) (all_present r) | None :: _ => None end.
Definition present (l : list (option Q)) : list Q := flat_map (fun v => match v with Some x => [x] | None => [] end) l.
Definition product (l : list Q) : Q := fold_right Qmult 1 l.
(** The combination of the values of the cubes at one place (first cube first). *)
Definition combination (op : string) (l : list (option Q)) : option Q :=
  if (op =? "masked_add")%string then match present l with [] => None | ps => Some (qsum ps) end
  else match all_present l with
       | None | Some [] => None
       | Some (x :: r) =>
           if (existsb (String.eqb op) ["+"; "add"])%string then Some (x + qsum r)
           else if (op =? "mean")%string then Some ((x + qsum r) / Qlen (x :: r))
           else if (existsb (String.eqb op) ["-"; "subtract"])%string then Some (x - qsum r)
           else if (existsb (String.eqb op) ["*"; "multiply"])%string then Some (x * product r)
           else if (op =? "max")%string then Some (qmaxl x r)
           else if (op =? "min")%string then Some (qminl x r) else None
       end.
Definition same_value (a b : option Q) : Prop := match a, b with Some x, Some y => x == y | None, None => True | _, _ => False end.
Definition known (op : string) : Prop := In op ["+"; "add"; "-"; "subtract"; "*"; "multiply"; "max"; "min"; "mean"; "masked_add"]%string.
(** An index is valid for a cube when it has one entry for each dimension, below its length. *)
Definition valid (idx : list nat) (c : cube) : Prop := Forall2 (fun i d => (i < length (dpoints d))%nat) idx (dims c).
(** Two cubes are on the same grid when they have the same dimension coordinates in the same order. *)
Definition same_grid (c c' : cube) : Prop := Forall2 (fun d d' => dname d = dname d' /\ Forall2 Qeq (dpoints d) (dpoints d')) (dims c) (dims c').
(** A cube that lacks one dimension of another, at position pos, and is otherwise on the same grid. *)
Definition lacks (name : string) (pos : nat) (c full : cube) : Prop :=
  ~ In name (map dname (dims c)) /\ ~ In name (scalars c) /\
  Forall2 (fun d d' => dname d = dname d' /\ Forall2 Qeq (dpoints d) (dpoints d')) (dims c) (firstn pos (dims full) ++ skipn (S pos) (dims full)).
Definition without (pos : nat) (idx : list nat) : list nat := firstn pos idx ++ skipn (S pos) idx.
