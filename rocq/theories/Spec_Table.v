(** Vocabulary for C47: the label a value is read at. *)
From Verif Require Import Base.
Local Open Scope Q_scope.

(** [l] is the greatest of the labels below v + 0.00001; when no label is, the smallest label. *)
Definition label_for (labels : Q -> Prop) (v l : Q) : Prop :=
  labels l /\
  ((l < v + (1 # 100000) /\ forall m, labels m -> m < v + (1 # 100000) -> m <= l) \/
   (forall m, labels m -> v + (1 # 100000) <= m /\ l <= m)).
(** The labels of a table given by its columns. *)
Definition is_column (t : list (Q * list (Q * Q))) (c : Q) : Prop := In c (map fst t).
Definition is_row (t : list (Q * list (Q * Q))) (r : Q) : Prop := exists col, In col t /\ In r (map fst (snd col)).
(** The table has value x in row r of column c. *)
Definition holds (t : list (Q * list (Q * Q))) (r c x : Q) : Prop := exists cells, In (c, cells) t /\ In (r, x) cells.
(** Different labels are different numbers. *)
Definition distinct (l : list Q) : Prop := ForallOrdPairs (fun x y => ~ x == y) l.
Definition well_formed (t : list (Q * list (Q * Q))) : Prop := distinct (map fst t) /\ Forall (fun c => distinct (map fst (snd c))) t.
(** What is read for a row value rv and a column value cv: None when the column has no such row. *)
Definition table_value (t : list (Q * list (Q * Q))) (rv cv : Q) (o : option Q) : Prop :=
  exists r c, label_for (is_row t) rv r /\ label_for (is_column t) cv c /\
    match o with Some x => holds t r c x | None => forall r' x, r' == r -> ~ holds t r' c x end.
