(** What the weather codes of a decision tree say about each other (over the syntax of trees in Model_Tree.v). *)
From Verif Require Import Base Model_Threshold Spec_Tree Model_Tree.

(** [c] is the code of the night version of the leaf with code [k]. *)
Definition night_of (t : tree) (k c : Z) : Prop :=
  exists n tgt g x g', assoc n t = Some (Leaf k (Some tgt) g) /\ assoc tgt t = Some (Leaf c x g').
(** The code counted for [c]: a night code counts as its day code, any other as itself. *)
Definition counted_as (t : tree) (c k : Z) : Prop := night_of t k c \/ ((forall k', ~ night_of t k' c) /\ k = c).
Definition in_group (t : tree) (g : string) (c : Z) : Prop := exists n x, assoc n t = Some (Leaf c x (Some g)).
(** [c'] replaces [c]: the lowest code of the same group that occurs in the data; codes without a group stay. *)
Definition regrouped (t : tree) (data : list Z) (c c' : Z) : Prop :=
  ((forall g, ~ in_group t g c) /\ c' = c) \/
  (exists g, in_group t g c /\ in_group t g c' /\ In c' data /\ forall z, In z data -> in_group t g z -> (c' <= z)%Z).
(** Trees whose leaves have distinct codes and whose if_night entries name leaves that have no night version themselves, each the
    night version of one leaf. *)
Record proper_leaves (t : tree) : Prop := {
  pl_names : NoDup (map fst t);
  pl_codes : forall n n' c x g x' g', assoc n t = Some (Leaf c x g) -> assoc n' t = Some (Leaf c x' g') -> n = n';
  pl_night : forall n c tgt g, assoc n t = Some (Leaf c (Some tgt) g) -> exists c' g', assoc tgt t = Some (Leaf c' None g');
  pl_one : forall n n' c c' tgt g g', assoc n t = Some (Leaf c (Some tgt) g) -> assoc n' t = Some (Leaf c' (Some tgt) g') -> n = n' }.
Definition leaf_code_of (t : tree) (c : Z) : Prop := exists n x g, assoc n t = Some (Leaf c x g).
