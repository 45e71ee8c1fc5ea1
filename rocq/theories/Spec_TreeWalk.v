(** Walking a decision tree from its start node, one question at a time (over the syntax of trees in Model_Tree.v). *)
From Verif Require Import Base Model_Threshold Spec_Tree Model_Tree.
Local Open Scope string_scope.

(** The values and thresholds a node's question is about. *)
Definition field_values (env : inputs) (d : dnode) (fs : list (val * Q)) : Prop :=
  Forall2 (fun (f : operand * Q) v => eval_operand env (fst f) = Ok (fst v) /\ snd v = snd f) (d_fields d) fs.

(** walk env t n c: from node n the point's data lead to the leaf of category c. *)
Inductive walk (env : inputs) (t : tree) : string -> Z -> Prop :=
| walk_leaf n c night group : assoc n t = Some (Leaf c night group) -> walk env t n c
| walk_true n d fs c : assoc n t = Some (Node d) -> field_values env d fs -> yes (d_cmp d) (d_comb d) fs ->
    walk env t (d_true d) c -> walk env t n c
| walk_false n d fs c : assoc n t = Some (Node d) -> field_values env d fs -> no (d_cmp d) (d_comb d) fs ->
    walk env t (d_false d) c -> walk env t n c.

(** The same, with the nodes in [missing] answered by their if_diagnostic_missing branch. *)
Inductive walk_missing (env : inputs) (missing : string -> Prop) (t : tree) : string -> Z -> Prop :=
| wm_leaf n c night group : assoc n t = Some (Leaf c night group) -> walk_missing env missing t n c
| wm_true n d fs c : ~ missing n -> assoc n t = Some (Node d) -> field_values env d fs -> yes (d_cmp d) (d_comb d) fs ->
    walk_missing env missing t (d_true d) c -> walk_missing env missing t n c
| wm_false n d fs c : ~ missing n -> assoc n t = Some (Node d) -> field_values env d fs -> no (d_cmp d) (d_comb d) fs ->
    walk_missing env missing t (d_false d) c -> walk_missing env missing t n c
| wm_skip n d b c : missing n -> assoc n t = Some (Node d) -> d_missing d = Some b ->
    walk_missing env missing t (if b then d_true d else d_false d) c -> walk_missing env missing t n c.

(** Nodes that can be met. *)
Inductive reach (t : tree) (s : string) : string -> Prop :=
| reach_refl : reach t s s
| reach_true n d : reach t s n -> assoc n t = Some (Node d) -> reach t s (d_true d)
| reach_false n d : reach t s n -> assoc n t = Some (Node d) -> reach t s (d_false d).

(** A question that check_tree accepts and whose data are present: a known comparison; one field, or several joined by AND / OR. *)
Definition node_ok (env : inputs) (d : dnode) : Prop :=
  In (d_cmp d) [">="; ">"; "<="; "<"] /\
  ((d_comb d = "" /\ length (d_fields d) = 1%nat) \/ (In (d_comb d) ["AND"; "OR"] /\ d_fields d <> [])) /\
  (forall f, In f (d_fields d) -> exists v, eval_operand env (fst f) = Ok v).

(** A node has missing data when one of the diagnostics it asks about was not supplied. *)
Definition lacks_data (env : inputs) (t : tree) (n : string) : Prop :=
  exists d v, assoc n t = Some (Node d) /\ In v (node_vars d) /\ env v = None.
(** Where a branch leads once nodes without data are passed over by their if_diagnostic_missing branch. *)
Inductive resolves (missing : string -> Prop) (t : tree) : string -> string -> Prop :=
| res_here n : ~ missing n -> resolves missing t n n
| res_skip n d b m : missing n -> assoc n t = Some (Node d) -> d_missing d = Some b ->
    resolves missing t (if b then d_true d else d_false d) m -> resolves missing t n m.
(** The syntax part of node_ok. *)
Definition node_syntax (d : dnode) : Prop :=
  In (d_cmp d) [">="; ">"; "<="; "<"] /\
  ((d_comb d = "" /\ length (d_fields d) = 1%nat) \/ (In (d_comb d) ["AND"; "OR"] /\ d_fields d <> [])).
