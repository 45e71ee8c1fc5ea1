(** Neighbourhoods, said directly: sums over windows of a field, weighted means over the valid points of a window. *)
From Verif Require Import Base Model_Nbhood.
Local Open Scope Q_scope.

(** The value at any position of the plane: the field's inside its domain, c outside. *)
Definition value (c : Q) (h w : Z) (g : grid Q) (i j : Z) : Q := if inside h w i j then g i j else c.
(** Sum over the square of half-width r around (y, x). *)
Definition square_total (c : Q) (h w r : Z) (g : grid Q) (y x : Z) : Q :=
  zsum (y - r) (Z.to_nat (2 * r + 1)) (fun i => zsum (x - r) (Z.to_nat (2 * r + 1)) (fun j => value c h w g i j)).
(** The neighbourhood total of a field for either method: positions outside the domain count nothing in a square, and as the nearest
    edge point in a circle. *)
Definition weight (m : method) (r dy dx : Z) : Q :=
  match m with
  | Square => 1
  | Circular false => if Z.ltb (r * r) (dy * dy + dx * dx) then 0 else 1
  | Circular true => Qmax 0 (1 - inject_Z (dy * dy + dx * dx) / inject_Z (r * r))
  end.
Definition entry (m : method) (h w : Z) (g : grid Q) (i j : Z) : Q :=
  match m with Square => value 0 h w g i j | Circular _ => g (nearest h i) (nearest w j) end.
Definition total (m : method) (h w r : Z) (g : grid Q) (y x : Z) : Q :=
  zsum (- r) (Z.to_nat (2 * r + 1)) (fun dy => zsum (- r) (Z.to_nat (2 * r + 1)) (fun dx => weight m r dy dx * entry m h w g (y + dy) (x + dx))).

(** In the square method the fast path for fields that are mostly one is taken only for boxes of non-one points that stay clear of the
    domain's edge, or is not taken at all. *)
Definition clear_of_edge (h w r : Z) (other : Z -> Z -> Prop) : Prop :=
  forall i j, (0 <= i < h)%Z -> (0 <= j < w)%Z -> other i j -> (2 * r <= i < h - 2 * r)%Z /\ (2 * r <= j < w - 2 * r)%Z.
Definition spans_domain (h w r : Z) (other : Z -> Z -> Prop) : Prop :=
  let somewhere P := exists i j, (0 <= i < h)%Z /\ (0 <= j < w)%Z /\ other i j /\ P i j in
  somewhere (fun i _ => (i <= r)%Z) /\ somewhere (fun i _ => (h - 1 - r <= i)%Z) /\
  somewhere (fun _ j => (j <= r)%Z) /\ somewhere (fun _ j => (w - 1 - r <= j)%Z).
Definition edge_safe (m : method) (h w r : Z) (other : Z -> Z -> Prop) : Prop :=
  match m with Square => clear_of_edge h w r other \/ spans_domain h w r other | Circular _ => True end.

(** A point contributes to its neighbours' results when neither the data nor the mask field marks it. *)
Definition usable (own : grid bool) (mask : option (grid Q)) (i j : Z) : bool :=
  (negb (own i j) && match mask with Some k => negb (k i j =? 0) | None => true end)%bool.
Definition weight_total (m : method) (h w r : Z) (ok : grid bool) : grid Q := total m h w r (fun i j => if ok i j then 1 else 0).
Definition value_total (m : method) (h w r : Z) (ok : grid bool) (data : grid Q) : grid Q := total m h w r (fun i j => if ok i j then data i j else 0).
(** Some in-window position contributes at (y, x). *)
Definition position (m : method) (h w i j : Z) : option (Z * Z) :=
  match m with Square => if inside h w i j then Some (i, j) else None | Circular _ => Some (nearest h i, nearest w j) end.
Definition contributes (m : method) (h w r : Z) (ok : grid bool) (y x i j : Z) : Prop :=
  exists dy dx, (- r <= dy <= r)%Z /\ (- r <= dx <= r)%Z /\ 0 < weight m r dy dx /\ position m h w (y + dy) (x + dx) = Some (i, j) /\ ok i j = true.
