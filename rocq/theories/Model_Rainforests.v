(** Model of improver/calibration/rainforest_calibration.py.
    Simplifications: numbers are exact (no float32 rounding), no missing data; a model file is its sum of decision trees (LightGBM sends a value <= the split to the left), the treelite class being the same code
    with other files; the non-realization dimensions of a cube are compared as a whole (compare_coords); realization is the leading dimension where a cube has it; the axes of the result are (point, threshold) instead of (threshold, point). *)
From Verif Require Import Base Interp Model_Extract Model_Manip.
Local Open Scope Q_scope.

(** ** The tree models (LightGBM's Booster.predict). *)
Inductive rtree := Leaf (v : Q) | Split (feature : nat) (value : Q) (left right : rtree).
Fixpoint tree_value (t : rtree) (x : list Q) : Q := match t with Leaf v => v | Split f s l r => if nth f x 0 <=? s then tree_value l x else tree_value r x end.
Record forest := { fo_features : nat; fo_trees : list rtree }.
Definition predict (m : forest) (x : list Q) : Q := qsum (map (fun t => tree_value t x) (fo_trees m)).

(** ** lines 210-241 (_parse_model_config): lead time in hours -> threshold -> model; equal keys collapse, the last value winning; then sorted. *)
Fixpoint dict_put {V} (k : Q) (v : V) (l : list (Q * V)) : list (Q * V) := match l with [] => [(k, v)] | e :: r => if fst e =? k then (fst e, v) :: r else e :: dict_put k v r end.
Definition as_dict {V} (l : list (Q * V)) : list (Q * V) := fold_left (fun d e => dict_put (fst e) (snd e) d) l [].
Definition key_leb {V} (a b : Q * V) : bool := fst a <=? fst b.
Definition sorted_items {V} (l : list (Q * V)) : list (Q * V) := isort key_leb (as_dict l).
Notation config := (list (Q * list (Q * forest))).
Definition parse_config (c : config) : config := sorted_items (map (fun e => (fst e, sorted_items (snd e))) c).
(** lines 303-321 (__init__): the same thresholds for all lead times (a lead time without any threshold is not considered). *)
Fixpoint same_numbers (a b : list Q) : bool := match a, b with [], [] => true | x :: a', y :: b' => (x =? y) && same_numbers a' b' | _, _ => false end.
Definition model_thresholds (c : config) : list Q := match c with [] => [] | (_, m) :: _ => map fst m end.
Definition plugin (c : config) : result config :=
  let c' := parse_config c in
  if forallb (fun e => same_numbers (map fst (snd e)) (model_thresholds c')) c' then Ok c' else Err ValueError.

(** ** lines 330-416 (_align_feature_variables). *)
Record variable := { va_name : string; va_dims : list (string * list Q); va_real : option (list Z); va_data : list Q }.
Definition dims_eqb (a b : list (string * list Q)) : bool :=
  (length a =? length b)%nat && forallb (fun p => String.eqb (fst (fst p)) (fst (snd p)) && same_numbers (snd (fst p)) (snd (snd p))) (combine a b).
Fixpoint zlist_eqb (a b : list Z) : bool := match a, b with [], [] => true | x :: a', y :: b' => (x =? y)%Z && zlist_eqb a' b' | _, _ => false end.
Fixpoint name_put {V} (k : string) (v : V) (l : list (string * V)) : list (string * V) := match l with [] => [(k, v)] | e :: r => if String.eqb (fst e) k then (k, v) :: r else e :: name_put k v r end.
Definition realization_coords (l : list variable) : list (string * list Z) := fold_left (fun d v => match va_real v with Some r => name_put (va_name v) r d | None => d end) l [].
Definition broadcast (r : list Z) (v : variable) : variable :=
  match va_real v with Some _ => v | None => {| va_name := va_name v; va_dims := va_dims v; va_real := Some r; va_data := concat (repeat (va_data v) (length r)) |} end.
Definition align (features : list variable) (forecast : variable) : result (list variable * variable) :=
  let combined := features ++ [forecast] in
  if negb (forallb (fun v => dims_eqb (va_dims v) (va_dims forecast)) combined) then Err ValueError
  else match realization_coords combined with
       | [] => Ok (map (broadcast [0%Z]) features, broadcast [0%Z] forecast)
       | (_, r) :: others => if forallb (fun e => zlist_eqb (snd e) r) others then Ok (map (broadcast r) features, broadcast r forecast) else Err ValueError
       end.

(** ** lines 454-483 (_prepare_features_array): columns in the alphabetical order of the names; extract_cube wants exactly one cube of a name; numpy.concatenate equal lengths. *)
Definition extract_cube (n : string) (l : list variable) : result variable := match filter (fun v => String.eqb (va_name v) n) l with [v] => Ok v | _ => Err ConstraintMismatchError end.
Definition rows_of (n : nat) (columns : list (list Q)) : list (list Q) := map (fun i => map (fun c => nth i c 0) columns) (seq 0 n).
Definition features_array (features : list variable) : result (list (list Q)) :=
  let* l := mapM (fun n => extract_cube n features) (isort String.leb (map va_name features)) in
  match map va_data l with
  | [] => Err ValueError
  | c :: r => if forallb (fun d => (length d =? length c)%nat) r then Ok (rows_of (length c) (c :: r)) else Err ValueError
  end.

(** ** lines 485-507 (_make_decreasing) for one column of probabilities. *)
Fixpoint accumulate (op : Q -> Q -> Q) (m : Q) (l : list Q) : list Q := match l with [] => [] | x :: r => op m x :: accumulate op (op m x) r end.
Definition running (op : Q -> Q -> Q) (l : list Q) : list Q := match l with [] => [] | x :: r => x :: accumulate op x r end.
Definition make_decreasing (l : list Q) : list Q :=
  map (fun p => (1 # 2) * (fst p + snd p)) (combine (rev (running Qmax (rev l))) (running Qmin l)).

(** ** lines 523-528: the model's lead time, the first of the nearest ones if there is no exact one. *)
Fixpoint nearest (best : Q) (t : Q) (l : list Q) : Q := match l with [] => best | x :: r => if Qabs (x - t) <? Qabs (best - t) then nearest x t r else nearest best t r end.
Definition models_at (c : config) (lead : Q) : result (list (Q * forest)) :=
  match find (fun e => fst e =? lead) c with
  | Some e => Ok (snd e)
  | None => match map fst c with
            | [] => Err ValueError
            | x :: r => match find (fun e => fst e =? nearest x lead r) c with Some e => Ok (snd e) | None => Err KeyError end
            end
  end.

(** ** lines 137-177 (_get_feature_splits): all the values at which a feature is split by any model of the lead time, sorted and without repeats. *)
Fixpoint tree_splits (f : nat) (t : rtree) : list Q := match t with Leaf _ => [] | Split g s l r => (if (g =? f)%nat then [s] else []) ++ tree_splits f l ++ tree_splits f r end.
Fixpoint uniq (l : list Q) : list Q := match l with [] => [] | x :: r => if existsb (Qeq_bool x) r then uniq r else x :: uniq r end.
Definition feature_splits (ms : list (Q * forest)) (f : nat) : list Q := qsort (uniq (flat_map (fun m => flat_map (tree_splits f) (fo_trees (snd m))) ms)).

(** ** lines 530-551 and 558-561 (bin_data): which row's prediction each row gets.  The index arrays are the same for all thresholds; entries of full_prediction that are not predicted are never read. *)
Definition bins (splits : nat -> list Q) (n : nat) (x : list Q) : list nat := map (fun f => searchsorted_right (splits f) (nth f x 0)) (seq 0 n).
Fixpoint lex_leb (a b : list nat) : bool := match a, b with x :: a', y :: b' => (x <? y)%nat || ((x =? y)%nat && lex_leb a' b') | [], _ => true | _, [] => false end.
(** numpy.lexsort: the last key is the primary one; stable. *)
Definition lexsort (b : list (list nat)) : list nat := map snd (isort (fun p q => lex_leb (rev (fst p)) (rev (fst q))) (combine b (seq 0 (length b)))).
Fixpoint nat_list_eqb (a b : list nat) : bool := match a, b with [], [] => true | x :: a', y :: b' => (x =? y)%nat && nat_list_eqb a' b' | _, _ => false end.
Fixpoint changed (prev : list nat) (l : list (list nat)) : list bool := match l with [] => [] | x :: r => negb (nat_list_eqb prev x) :: changed x r end.
Definition predict_rows (l : list (list nat)) : list bool := match l with [] => [] | x :: r => true :: changed x r end.
Fixpoint fill (pos m : nat) (l : list bool) : list nat := match l with [] => [] | b :: r => let m' := Nat.max m (if b then pos else 0%nat) in m' :: fill (S pos) m' r end.
Definition fill_inds (l : list bool) : list nat := fill 0 0 l.
Definition representatives (splits : nat -> list Q) (n : nat) (rows : list (list Q)) : list (list Q) :=
  let binned := map (bins splits n) rows in
  let sort_ind := lexsort binned in
  let sorted_data := map (fun i => nth i binned []) sort_ind in
  let filled := map (fun j => nth (nth j sort_ind 0%nat) rows []) (fill_inds (predict_rows sorted_data)) in
  map (fun i => nth (index_of i sort_ind) filled []) (seq 0 (length rows)).
(** ** lines 530-573 (_evaluate_probabilities): the clipped predictions of each row at each threshold. *)
Definition evaluate (bin_data : bool) (nfeatures : nat) (ms : list (Q * forest)) (rows : list (list Q)) : list (list Q) :=
  map (fun x => map (fun m => clip 0 1 (predict (snd m) x)) ms) (if bin_data then representatives (feature_splits ms) nfeatures rows else rows).

(** ** lines 618-681 (_get_ensemble_distributions) for one row; [numba]: interpolate_multiple_rows_same_x with or without numba. *)
Definition interp (numba : bool) (xp fp : list Q) (x : Q) : Q := if numba then fast_at xp fp x else np_interp (combine xp fp) x.
Definition allclose (a b : list Q) : bool := forallb (fun p => isclose (fst p) (snd p)) (combine a b).
Definition at_outputs (numba : bool) (lb : Q) (thr : list Q) (p outs : list Q) : list Q :=
  if (length thr =? length outs)%nat && allclose thr outs then p else make_decreasing (map (interp numba (lb :: thr) (1 :: p)) outs).
Definition certain_first (lb : Q) (outs p : list Q) : list Q := match outs, p with o :: _, _ :: r => if isclose o lb then 1 :: r else p | _, _ => p end.
Definition distribution (numba : bool) (lb : Q) (thr outs p : list Q) : list Q := certain_first lb outs (at_outputs numba lb thr p outs).

(** ** lines 683-770 (process): [lead] in seconds; [factor] turns threshold_units into the forecast's; [lb] is the lower bound of the forecast's distribution. *)
Definition strictly_monotonic (l : list Q) : bool := increasing_b l || increasing_b (rev l).
Definition mean_at (R P : nat) (rows : list (list Q)) (p k : nat) : Q := qsum (map (fun r => nth k (nth (r * P + p) rows []) 0) (seq 0 R)) / Qn R.
Definition process (inst : config) (bin_data numba : bool) (lb factor : Q) (lead : Z) (features : list variable) (forecast : variable) (outputs : list Q) : result (list Q * list (list Q)) :=
  match inst with
  | (_, (_, m) :: _) :: _ =>
      if negb (fo_features m =? length features)%nat then Err ValueError
      else
        let* a := align features forecast in
        let* rows := features_array (fst a) in
        let* ms := models_at inst (inject_Z lead / 3600) in
        if negb (length rows =? length (va_data (snd a)))%nat then Err ValueError
        else
          let cdfs := map make_decreasing (evaluate bin_data (fo_features m) ms rows) in
          let outs := map (Qmult factor) outputs in
          match outs with
          | [] => Err IndexError
          | _ => if strictly_monotonic outs
                 then let dists := map (distribution numba lb (model_thresholds inst) outs) cdfs in
                      let R := length (match va_real (snd a) with Some r => r | None => [] end) in
                      let P := (length rows / R)%nat in
                      Ok (outs, map (fun p => map (mean_at R P dists p) (seq 0 (length outs))) (seq 0 P))
                 else Err ValueError
          end
  | _ => Err StopIteration
  end.
