(** Model of improver/categorical/decision_tree.py (ApplyDecisionTree) and the parts of improver/categorical/utilities.py it uses,
    at one grid point. A tree is the dictionary of its nodes in order, without "meta". A diagnostic at a given threshold is one key
    of the inputs (cube extraction by name and threshold is not modelled); a missing key is a missing cube. Not modelled: check_tree,
    cube metadata, units. *)
From Verif Require Import Base Model_Threshold Spec_Tree.
Local Open Scope string_scope.
Local Open Scope Q_scope.

(** decision_tree.py:49-66 [_define_invertible_conditions]: the dictionary and its reverse entries. *)
Definition base_inversions : list (string * string) := [(">=", "<"); (">", "<="); ("OR", "AND"); ("", "")].
Definition inversions : list (string * string) :=
  (map (fun kv : string * string => (snd kv, fst kv)) base_inversions ++ base_inversions)%list.

(** decision_tree.py:330-336 [_invert_comparator]. *)
Definition invert_comparator (c : string) : result string :=
  match assoc c inversions with Some i => Ok i | None => Err KeyError end.

(** * Expressions *)
(** An expression alternates operands and operators. Division by zero is not modelled (Q's x / 0 = 0 stands for it). *)
Inductive operand := OVar (name : string) | ONum (q : Q) | OSub (first : operand) (rest : list (op * operand)).

Definition app_op (o : op) (x y : Q) : Q := match o with Add => x + y | Sub => x - y | Mul => x * y | Div => x / y end.
Definition vop (o : op) (a b : val) : val :=
  match a, b with
  | Masked, _ | _, Masked => Masked
  | NaN, _ | _, NaN => NaN
  | Num x, Num y => Num (app_op o x y)
  end.
Definition op_eqb (a b : op) : bool := match a, b with Add, Add | Sub, Sub | Mul, Mul | Div, Div => true | _, _ => false end.

(** decision_tree.py:705-727: one turn of the while loop for one operator: the leftmost occurrence is applied; None when there is
    no occurrence (the for loop's else: break). *)
Fixpoint reduce_leftmost (o : op) (x : val) (l : list (op * val)) : option (val * list (op * val)) :=
  match l with
  | [] => None
  | (o', y) :: r =>
      if op_eqb o o' then Some (vop o x y, r)
      else match reduce_leftmost o y r with
           | Some (y', r') => Some (x, (o', y') :: r')
           | None => None
           end
  end.
(** The while loop; [fuel]: at most one turn per operator. *)
Fixpoint reduce_all (fuel : nat) (o : op) (x : val) (l : list (op * val)) : val * list (op * val) :=
  match fuel with
  | O => (x, l)
  | S f => match reduce_leftmost o x l with Some (x', l') => reduce_all f o x' l' | None => (x, l) end
  end.
(** decision_tree.py:704-730: the loop over operators in the order "/", "*", "+", "-". *)
Definition eval_flat (x : val) (l : list (op * val)) : val :=
  let step (xl : val * list (op * val)) (o : op) := reduce_all (length (snd xl)) o (fst xl) (snd xl) in
  fst (fold_left step [Div; Mul; Add; Sub] (x, l)).

(** decision_tree.py:665-730 [evaluate_extract_expression]: sub-expressions first. cubes.extract(...)[0] of a missing cube raises
    IndexError. *)
Definition inputs := string -> option val.
Fixpoint eval_operand (env : inputs) (e : operand) : result val :=
  match e with
  | OVar n => match env n with Some v => Ok v | None => Err IndexError end
  | ONum q => Ok (Num q)
  | OSub x l =>
      let* vx := eval_operand env x in
      let* vl := (fix go (l : list (op * operand)) : result (list (op * val)) :=
                    match l with
                    | [] => Ok []
                    | (o, y) :: r => let* v := eval_operand env y in let* vs := go r in Ok ((o, v) :: vs)
                    end) l in
      Ok (eval_flat vx vl)
  end.

(** * Conditions *)
(** decision_tree.py:633-663 [compare_array_to_threshold]: None is a masked result. *)
Definition compare (v : val) (cmp : string) (t : Q) : result (option bool) :=
  let go f := Ok (match v with Masked => None | NaN => Some false | Num x => Some (f x) end) in
  if String.eqb cmp "<" then go (fun x => x <? t)
  else if String.eqb cmp ">" then go (fun x => t <? x)
  else if String.eqb cmp "<=" then go (fun x => x <=? t)
  else if String.eqb cmp ">=" then go (fun x => t <=? x)
  else Err ValueError.

(** "&" and "|" of masked arrays: the mask is the union. *)
Definition mcomb (f : bool -> bool -> bool) (a b : option bool) : option bool :=
  match a, b with Some x, Some y => Some (f x y) | _, _ => None end.

(** decision_tree.py:785-796: one further item of a chain. *)
Definition combine_items (comb : string) (a b : option bool) : result (option bool) :=
  if String.eqb comb "AND" then Ok (mcomb andb a b)
  else if String.eqb comb "OR" then Ok (mcomb orb a b)
  else Err RuntimeError.
Fixpoint chain_rest {A} (ev : A -> result (option bool)) (comb : string) (acc : option bool) (l : list A) : result (option bool) :=
  match l with
  | [] => Ok acc
  | x :: r => let* v := ev x in let* acc' := combine_items comb acc v in chain_rest ev comb acc' r
  end.
(** decision_tree.py:732-797 [evaluate_condition_chain], for any kind of items; items_list[0] of an empty list raises IndexError. *)
Definition chain {A} (ev : A -> result (option bool)) (items : list A) (comb : string) : result (option bool) :=
  match items with
  | [] => Err IndexError
  | x :: r => let* v := ev x in chain_rest ev comb v r
  end.

(** A decision node: the fields zipped with their thresholds (create_condition_chain, decision_tree.py:357-427); d_missing is
    if_diagnostic_missing (true: "if_true"); d_det the "deterministic" entry. *)
Record dnode := { d_fields : list (operand * Q); d_cmp : string; d_comb : string; d_true : string; d_false : string;
                  d_missing : option bool; d_det : bool }.
Inductive query := Leaf (code : Z) (night : option string) (group : option string) | Node (d : dnode).
Definition tree := list (string * query).

Definition eval_field (env : inputs) (cmp : string) (f : operand * Q) : result (option bool) :=
  let* v := eval_operand env (fst f) in compare v cmp (snd f).
Definition condition := (list (operand * Q) * string * string)%type. (* fields, comparator, combination *)
Definition eval_condition (env : inputs) (c : condition) : result (option bool) :=
  let '(fs, cmp, comb) := c in chain (eval_field env cmp) fs comb.

(** decision_tree.py:338-355 [invert_condition]. *)
Definition invert_condition (d : dnode) : result condition :=
  let* c := invert_comparator (d_cmp d) in
  let* b := invert_comparator (d_comb d) in
  Ok (d_fields d, c, b).

(** * Routes *)
(** Graph vertices: node names and the integer codes of the leaves (decision_tree.py:818-823). *)
Inductive vertex := VName (n : string) | VCode (z : Z).
Definition vertex_eqb (a b : vertex) : bool :=
  match a, b with VName m, VName n => String.eqb m n | VCode y, VCode z => Z.eqb y z | _, _ => false end.
Definition neighbours (t : tree) (v : vertex) : option (list vertex) :=
  match v with
  | VCode _ => None
  | VName n => match assoc n t with
               | None => None
               | Some (Leaf c _ _) => Some [VCode c]
               | Some (Node d) => Some [VName (d_true d); VName (d_false d)]
               end
  end.
(** decision_tree.py:503-546 [find_all_routes]; [fuel] bounds the recursion depth. *)
Fixpoint find_all_routes (fuel : nat) (t : tree) (stop : vertex) (route : list vertex) (start : vertex) : list (list vertex) :=
  let route := (route ++ [start])%list in
  if vertex_eqb start stop then [route]
  else match neighbours t start with
       | None => []
       | Some ns =>
           match fuel with
           | O => []
           | S f => flat_map (fun n => if existsb (vertex_eqb n) route then [] else find_all_routes f t stop route n) ns
           end
       end.

(** decision_tree.py:839-851: the conditions of a route. (current.get("if_false") == next_node is tested first, so a node whose
    two branches coincide always gets the inverted condition; a leaf adds none.) *)
Fixpoint route_conditions (t : tree) (route : list vertex) : result (list condition) :=
  match route with
  | cur :: ((nxt :: _) as rest) =>
      match cur with
      | VCode _ => Err KeyError
      | VName n =>
          match assoc n t with
          | None => Err KeyError
          | Some (Leaf _ _ _) => route_conditions t rest
          | Some (Node d) =>
              let* c := if vertex_eqb (VName (d_false d)) nxt then invert_condition d else Ok (d_fields d, d_cmp d, d_comb d) in
              let* cs := route_conditions t rest in
              Ok (c :: cs)
          end
      end
  | _ => Ok []
  end.
Definition eval_route (env : inputs) (t : tree) (route : list vertex) : result (option bool) :=
  let* cs := route_conditions t route in chain (eval_condition env) cs "AND".

(** decision_tree.py:825-829: every int among the values of a node; "deterministic": True is one of them (True == 1). *)
Definition defined_categories (t : tree) : list Z :=
  flat_map (fun kq : string * query => match snd kq with Leaf c _ _ => [c] | Node d => if d_det d then [1%Z] else [] end) t.

(** decision_tree.py:834-857: the loops over categories and routes; None is a masked point. *)
Definition set_route (env : inputs) (t : tree) (code : Z) (acc : option Z) (route : list vertex) : result (option Z) :=
  let* v := eval_route env t route in Ok (match v with Some true => Some code | _ => acc end).
Fixpoint foldM {A B} (f : B -> A -> result B) (b : B) (l : list A) : result B :=
  match l with [] => Ok b | x :: r => let* b' := f b x in foldM f b' r end.
Definition set_category (env : inputs) (t : tree) (start : string) (acc : option Z) (code : Z) : result (option Z) :=
  foldM (set_route env t code) acc (find_all_routes (S (length t)) t (VCode code) [] (VName start)).
Definition classify (env : inputs) (t : tree) (start : string) : result (option Z) :=
  foldM (set_category env t start) None (defined_categories t).

(** * Optional nodes *)
(** Variables a node needs. *)
Fixpoint operand_vars (e : operand) : list string :=
  match e with
  | OVar n => [n]
  | ONum _ => []
  | OSub x l => operand_vars x ++ (fix go (l : list (op * operand)) : list string :=
      match l with [] => [] | (_, y) :: r => operand_vars y ++ go r end) l
  end%list.
Definition node_vars (d : dnode) : list string := flat_map (fun f : operand * Q => operand_vars (fst f)) (d_fields d).

(** decision_tree.py:143-268 [prepare_input_cubes], presence of data only: the names of the optional nodes with missing data (once
    per missing diagnostic), or IOError when a required diagnostic is missing. *)
Definition missing_nodes (available : string -> bool) (t : tree) : result (list string) :=
  let* ls := mapM (fun kq : string * query =>
      match snd kq with
      | Leaf _ _ _ => Ok []
      | Node d => mapM (fun _ => match d_missing d with Some _ => Ok (fst kq) | None => Err FileNotFound end)
                       (filter (fun v => negb (available v)) (node_vars d))
      end) t in
  Ok (concat ls).

(** decision_tree.py:472-501 [remove_optional_missing]: rewrites self.queries and self.start_node. *)
Definition subst_name (m a n : string) : string := if String.eqb n m then a else n.
Definition subst_query (m a : string) (q : query) : query :=
  match q with
  | Leaf _ _ _ => q
  | Node d => Node {| d_fields := d_fields d; d_cmp := d_cmp d; d_comb := d_comb d;
                      d_true := subst_name m a (d_true d); d_false := subst_name m a (d_false d);
                      d_missing := d_missing d; d_det := d_det d |}
  end.
Definition alternative (t : tree) (m : string) : result string :=
  match assoc m t with
  | Some (Node d) => match d_missing d with Some true => Ok (d_true d) | Some false => Ok (d_false d) | None => Err KeyError end
  | _ => Err KeyError
  end.
Definition remove_one (ts : tree * string) (m : string) : result (tree * string) :=
  let* a := alternative (fst ts) m in
  Ok (map (fun kq : string * query => (fst kq, subst_query m a (snd kq))) (fst ts), subst_name m a (snd ts)).
Definition remove_optional_missing (t : tree) (start : string) (missing : list string) : result (tree * string) :=
  foldM remove_one (t, start) missing.

(** decision_tree.py:799-857 [process] as a step of the instance's state (queries and start node), at one grid point and without
    the day/night update. *)
Definition tree_process (st : tree * string) (env : inputs) : (tree * string) * result (option Z) :=
  match missing_nodes (fun v => match env v with Some _ => true | None => false end) (fst st) with
  | Err e => (st, Err e)
  | Ok ms => match remove_optional_missing (fst st) (snd st) ms with
             | Err e => (st, Err e)
             | Ok (t, s) => ((t, s), classify env t s)
             end
  end.

(** * Day and night *)
(** utilities.py:559-573 [day_night_map]; a missing target raises KeyError. A dictionary: later entries for one code replace earlier
    ones in place. *)
Definition leaf_code (t : tree) (n : string) : result Z :=
  match assoc n t with Some (Leaf c _ _) => Ok c | _ => Err KeyError end.
Fixpoint dict_set (k v : Z) (d : list (Z * Z)) : list (Z * Z) :=
  match d with [] => [(k, v)] | (k', v') :: r => if Z.eqb k k' then (k, v) :: r else (k', v') :: dict_set k v r end.
Definition day_night_map (t : tree) : result (list (Z * Z)) :=
  foldM (fun d (kq : string * query) => match snd kq with
                   | Leaf c (Some n) _ => let* v := leaf_code t n in Ok (dict_set c v d)
                   | _ => Ok d
                   end) [] t.
(** utilities.py:145-183 [update_daynight] at one point. *)
Definition update_daynight (map : list (Z * Z)) (is_day : bool) (code : option Z) : option Z :=
  fold_left (fun (acc : option Z) (kv : Z * Z) =>
    match acc with
    | Some c => if Z.eqb c (fst kv) then (if is_day then Some c else Some (snd kv)) else acc
    | None => None
    end) map code.

(** utilities.py:43-94 [update_tree_thresholds]: the caller's dictionary is rewritten. One node with a list of thresholds. *)
Inductive dthr := RawThr (value : Q) | RawThrPeriod (value period : Q) | CoordThr (value : Q).
Definition make_threshold (target_period : option Q) (d : dthr) : result dthr :=
  match d with
  | RawThr v => Ok (CoordThr v)
  | RawThrPeriod v p => match target_period with
                        | None => Err ValueError
                        | Some tp => if tp =? 0 then Err ValueError else Ok (CoordThr (v * tp / p))
                        end
  | CoordThr _ => Err ValueError (* an AuxCoord does not unpack into value and units *)
  end.
Definition update_tree_thresholds (target_period : option Q) (l : list dthr) : result (list dthr) := mapM (make_threshold target_period) l.
