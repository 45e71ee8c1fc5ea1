(** Model of parts of improver/utilities/cube_manipulation.py. Numbers are exact; attributes and coordinates are what the functions compare of them. *)
From Verif Require Import Base Model_Temporal.
Local Open Scope Q_scope.

(** ** Heights *)
(** A level: its height, and its values at the points; None is NaN. Masked data is not modelled. *)
Record level := { lv_height : Q; lv_values : list (option Q) }.
(** numpy.max: NaN if there is one. *)
Definition omax (a b : option Q) : option Q := match a, b with Some x, Some y => Some (Qmax x y) | _, _ => None end.
Definition column_max (l : list (option Q)) : option Q := match l with [] => None | x :: r => fold_left omax r x end.
Definition values_of (ls : list level) (i : nat) : list (option Q) := map (fun l => nth i (lv_values l) None) ls.
Definition default_bound (pick : Q -> list Q -> Q) (b : option Q) (hs : list Q) : result Q :=
  match b, hs with Some x, _ => Ok x | None, h :: r => Ok (pick h r) | None, [] => Err ValueError end.
(** cube_manipulation.py:711-776 [maximum_in_height]; [n] is the number of points. *)
Definition maximum_in_height (n : nat) (ls : list level) (lo hi : option Q) : result (list (option Q)) :=
  let hs := map lv_height ls in
  let* lo := default_bound qminl lo hs in
  let* hi := default_bound qmaxl hi hs in
  match filter (fun l => ((lo <=? lv_height l) && (lv_height l <=? hi))%bool) ls with
  | [] => Err ValueError
  | sub => Ok (map (fun i => column_max (values_of sub i)) (seq 0 n))
  end.
(** numpy ==: NaN equals nothing. *)
Definition num_eqb (a b : option Q) : bool := match a, b with Some x, Some y => x =? y | _, _ => false end.
(** lines 817-822: one turn of the loop at one point. *)
Definition overwrite (m : option Q) (i : nat) (acc : option Q) (l : level) : option Q := if num_eqb (nth i (lv_values l) None) m then Some (lv_height l) else acc.
(** lines 779-826 [height_of_maximum], data only. *)
Definition height_of_maximum (ls : list level) (mx : list (option Q)) (find_lowest : bool) : result (list (option Q)) :=
  if (length ls =? 1)%nat then Err ValueError else
  let order := if find_lowest then ls else rev ls in
  Ok (map (fun i => fold_left (overwrite (nth i mx None) i) order (nth i mx None)) (seq 0 (length mx))).

(** ** Dimensions *)
(** A cube: the name of the dimension coordinate of each dimension (None: no coordinate), its length, and the value for each list of indices. *)
Record cube (A : Type) := { cb_dims : list (option string * nat); cb_data : list nat -> A }.
Arguments cb_dims {A}. Arguments cb_data {A}. Arguments Build_cube {A}.
Definition dim_is (s : string) (d : option string * nat) : bool := match fst d with Some t => String.eqb s t | None => false end.
Fixpoint dim_of (s : string) (k : nat) (dims : list (option string * nat)) : option nat :=
  match dims with [] => None | d :: r => if dim_is s d then Some k else dim_of s (S k) r end.
Fixpoint index_of (d : nat) (l : list nat) : nat := match l with [] => 0 | x :: r => if (x =? d)%nat then 0 else S (index_of d r) end.
Definition nmem (x : nat) (l : list nat) : bool := existsb (Nat.eqb x) l.
Fixpoint nodup_b (l : list nat) : bool := match l with [] => true | x :: r => (negb (nmem x r) && nodup_b r)%bool end.
(** iris transpose: all dimensions, each once; dimension [k] of the result is dimension [nth k perm] of the cube. *)
Definition transpose {A} (c : cube A) (perm : list nat) : result (cube A) :=
  if ((length perm =? length (cb_dims c))%nat && nodup_b perm && forallb (fun d => (d <? length (cb_dims c))%nat) perm)%bool
  then Ok {| cb_dims := map (fun d => nth d (cb_dims c) (None, 0%nat)) perm; cb_data := fun idx => cb_data c (map (fun d => nth (index_of d perm) idx 0%nat) (seq 0 (length (cb_dims c)))) |}
  else Err ValueError.
(** lines 495-505: [threshold] is the name of the threshold coordinate of the cube, if there is one. *)
Definition named_dims {A} (c : cube A) (threshold : option string) (names : list string) : list nat :=
  flat_map (fun s => match (if String.eqb s "threshold" then threshold else Some s) with Some s => match dim_of s 0 (cb_dims c) with Some d => [d] | None => [] end | None => [] end) names.
Definition with_coord (dims : list (option string * nat)) : list nat := filter (fun d => match fst (nth d dims (None, 0%nat)) with Some _ => true | None => false end) (seq 0 (length dims)).
Fixpoint ascending (l : list nat) : bool := match l with x :: (y :: _) as r => ((x <=? y)%nat && ascending r)%bool | _ => true end.
(** lines 468-528 [enforce_coordinate_ordering]. *)
Definition enforce_ordering {A} (c : cube A) (threshold : option string) (names : list string) (anchor_start : bool) : result (cube A) :=
  let first := named_dims c threshold names in
  let others := filter (fun d => negb (nmem d first)) (with_coord (cb_dims c)) in
  let new_dims := if anchor_start then first ++ others else others ++ first in
  if ascending new_dims then Ok c else transpose c new_dims.
(** lines 651-708 [add_coordinate_to_cube]: dimensions without coordinate are counted as having one (iris has none of them in the way the function is used). *)
Definition add_coordinate {A} (c : cube A) (name : string) (size : nat) (location : Z) : result (cube A) :=
  let n := length (cb_dims c) in
  if ((Z.of_nat n <? location)%Z || (location <? 0)%Z)%bool then Err ValueError else
  let k := Z.to_nat location in
  transpose {| cb_dims := cb_dims c ++ [(Some name, size)]; cb_data := fun idx => cb_data c (firstn n idx) |} (firstn k (seq 0 n) ++ [n] ++ skipn k (seq 0 n)).
(** lines 431-465 [sort_coord_in_cube] along one dimension: the points of the coordinate with the rest of the cube at each. numpy.argsort: the order of equal points is not specified; here it is that of the cube. *)
Fixpoint insert_point {A} (p : Q * A) (l : list (Q * A)) : list (Q * A) := match l with [] => [p] | q :: r => if fst p <=? fst q then p :: l else q :: insert_point p r end.
Definition sort_points {A} (l : list (Q * A)) : list (Q * A) := fold_right insert_point [] l.
Definition sort_coord {A} (descending : bool) (l : list (Q * A)) : list (Q * A) := if descending then rev (sort_points l) else sort_points l.

(** ** Comparing and merging *)
Notation attributes := (list (string * string)).
Fixpoint get (k : string) (a : attributes) : option string := match a with [] => None | (k', v) :: r => if String.eqb k k' then Some v else get k r end.
Definition agrees (k : string) (a b : attributes) : bool := match get k a, get k b with Some x, Some y => String.eqb x y | _, _ => false end.
(** lines 287-307 [get_filtered_attributes]; [contains f k]: f occurs in k. *)
Definition filtered (contains : string -> string -> bool) (flt : option string) (a : attributes) : attributes := match flt with Some f => filter (fun e => contains f (fst e)) a | None => a end.
(** lines 310-361 [compare_attributes]. *)
Definition common_keys (cubes : list attributes) : list string :=
  match cubes with [] => [] | ref :: r => fold_left (fun keys a => filter (fun k => (existsb (String.eqb k) keys && agrees k a ref)%bool) (map fst a)) r (map fst ref) end.
Definition compare_attributes (contains : string -> string -> bool) (flt : option string) (cubes : list attributes) : result (list attributes) :=
  match map (filtered contains flt) cubes with
  | [] => Err IndexError
  | [_] => Ok []
  | l => Ok (map (filter (fun e => negb (existsb (String.eqb (fst e)) (common_keys l)))) l)
  end.
(** iris.util.equalise_attributes: those that are not common are removed. *)
Definition equalise (cubes : list attributes) : list attributes := map (filter (fun e => existsb (String.eqb (fst e)) (common_keys cubes))) cubes.
(** lines 161-175: the cell methods of the result (of a set, in no given order; here that of the first cube). *)
Definition shared_methods (cubes : list (list string)) : list string := match cubes with [] => [] | m :: r => filter (fun x => forallb (existsb (String.eqb x)) r) m end.
(** lines 177-207 [_check_time_bounds_ranges] for one coordinate; numpy.isclose. *)
Definition near (x y : Q) : bool := Qabs (x - y) <=? (1 # 100000000) + (1 # 100000) * Qabs y.
Definition check_ranges (bounds : list (Z * Z)) : result unit :=
  match bounds with
  | [] | [_] => Ok tt
  | b :: _ => let width := fun b : Z * Z => inject_Z (Z.abs (snd b - fst b)) in if forallb (fun c => near (width c) (width b)) bounds then Ok tt else Err ValueError
  end.

(** lines 565-620 [expand_bounds] for one coordinate: that of the result (its points), and the points and bounds of the inputs. *)
Record ecoord := { ec_points : list Q; ec_bounds : option (list (Q * Q)) }.
Definition ends (l : list (Q * Q)) : list Q := flat_map (fun b => [fst b; snd b]) l.
Definition is_bounded (c : ecoord) : bool := match ec_bounds c with Some _ => true | None => false end.
Definition span (l : list Q) : result (Q * Q) := match l with [] => Err ValueError | x :: r => Ok (qminl x r, qmaxl x r) end.
Definition expand_bounds (points : nat) (cs : list ecoord) : result (Q * (Q * Q)) :=
  if negb (points =? 1)%nat then Err ValueError else
  let* lh := if forallb is_bounded cs then span (flat_map (fun c => match ec_bounds c with Some b => ends b | None => [] end) cs)
             else if existsb is_bounded cs then Err ValueError else span (flat_map ec_points cs) in
  Ok (snd lh, lh).

(** lines 623-648 [filter_realizations]: cubes of one time each, with a field per realization. Merging sorts by realization and time; a realization given twice for a time cannot be merged; nothing left is an IndexError in line 171. *)
Notation timed := (Z * list (Z * Q))%type.
Definition fields_of (cs : list timed) (r : Z) : list (Z * Q) := flat_map (fun c : timed => map (fun e => (fst c, snd e)) (filter (fun e : Z * Q => (fst e =? r)%Z) (snd c))) cs.
Definition zeq_list (a b : list Z) : bool := if list_eq_dec Z.eq_dec a b then true else false.
Definition once (l : list Z) : bool := (length (zsortu l) =? length l)%nat.
Definition field_at_time (l : list (Z * Q)) (t : Z) : Q := match find (fun e => (fst e =? t)%Z) l with Some e => snd e | None => 0 end.
Definition filter_realizations (cs : list timed) : result (list (Z * list (Z * Q))) :=
  let times := zsortu (map fst cs) in
  let rs := zsortu (flat_map (fun c : timed => map fst (snd c)) cs) in
  if negb (forallb (fun r => once (map fst (fields_of cs r))) rs) then Err MergeError else
  match filter (fun r => zeq_list (zsortu (map fst (fields_of cs r))) times) rs with
  | [] => Err IndexError
  | l => Ok (map (fun r => (r, map (fun t => (t, field_at_time (fields_of cs r) t)) times)) l)
  end.

(** lines 531-562 [clip_cube_data] at a point: numpy.clip. *)
Definition clip_value (lo hi : Q) (v : option Q) : option Q := option_map (fun x => Qmin (Qmax x lo) hi) v.
