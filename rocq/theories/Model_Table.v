(** Model of improver/utilities/extract_from_table.py (ExtractValueFromTable). A table is its dictionary of columns, each a dictionary from row labels to values; labels are the numbers
    their texts stand for, distinct within one dictionary. A cube is its name, its shape and its values in C order (None is NaN). Masks, data types, units, the new name and the
    reordering of the dimensions of the row cube are not modelled. *)
From Verif Require Import Base.
Local Open Scope Q_scope.

Definition table := list (Q * list (Q * Q)).
(** np.searchsorted(labels, v, side="right"), for ascending labels. *)
Definition searchsorted_right (labels : list Q) (v : Q) : Z := Z.of_nat (length (filter (fun l => l <=? v) labels)).
(** extract_from_table.py:71-75: of several labels within the tolerance the last one is assigned. *)
Definition tol : Q := 1 # 100000.
Definition within_tol (labels : list Q) (v : Q) : list nat := filter (fun i => Qabs (nth i labels 0 - v) <? tol) (seq 0 (length labels)).
(** extract_from_table.py:51-80 [nearest_lower_index] for one value. *)
Definition nearest_lower_index (labels : list Q) (v : Q) : Z :=
  let i := (searchsorted_right labels v - 1)%Z in
  let i := fold_left (fun _ k => Z.of_nat k) (within_tol labels v) i in
  Z.max 0 i.

(** pandas: a column or row is found by its label; a cell that a column does not have is NaN. *)
Definition lookup {A} (l : Q) (d : list (Q * A)) : option A := option_map snd (find (fun p => fst p =? l) d).
Fixpoint dedup (l : list Q) : list Q := match l with [] => [] | x :: r => x :: filter (fun y => negb (y =? x)) (dedup r) end.
(** extract_from_table.py:117-127 [convert_dict_to_dataframe]: columns, rows and entries. *)
Definition column_labels (t : table) : list Q := qsort (map fst t).
Definition row_labels (t : table) : list Q := qsort (dedup (flat_map (fun c => map fst (snd c)) t)).
Definition entry (t : table) (r c : Q) : option Q := match lookup c t with Some col => lookup r col | None => None end.
(** Python indexing with an index that is not negative. *)
Definition at_index (l : list Q) (i : Z) : result Q := match nth_error l (Z.to_nat i) with Some x => Ok x | None => Err IndexError end.
(** extract_from_table.py:82-115 [extract_table_values] at one point; searchsorted puts NaN after every label, and the entry found there is replaced by NaN. *)
Definition index_of_value (labels : list Q) (v : option Q) : Z := match v with Some x => nearest_lower_index labels x | None => Z.max 0 (Z.of_nat (length labels) - 1) end.
Definition extract_point (t : table) (row column : option Q) : result (option Q) :=
  let* c := at_index (column_labels t) (index_of_value (column_labels t) column) in
  let* r := at_index (row_labels t) (index_of_value (row_labels t) row) in
  Ok (match row, column with Some _, Some _ => entry t r c | _, _ => None end).

Record tcube := { t_name : string; t_shape : list nat; t_data : list (option Q) }.
(** extract_from_table.py:129-188 [process]: the shape and values of the result. *)
Definition table_process (row_name : string) (t : table) (cubes : list tcube) : result (list nat * list (option Q)) :=
  match cubes with
  | [a; b] =>
      let* rc := match (t_name a =? row_name)%string, (t_name b =? row_name)%string with
                 | true, false => Ok (a, b) | false, true => Ok (b, a) | _, _ => Err ConstraintMismatchError end in
      let '(row, column) := rc in
      if list_eq_dec Nat.eq_dec (t_shape column) (t_shape row)
      then let* out := mapM (fun p => extract_point t (fst p) (snd p)) (combine (t_data row) (t_data column)) in Ok (t_shape row, out)
      else Err ValueError
  | _ => Err ValueError
  end.
