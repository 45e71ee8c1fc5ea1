(** Model of improver/nbhood/recursive_filter.py and of zero_masked in improver/generate_ancillaries/
    generate_orographic_smoothing_coefficients.py:206-250 as that plugin calls it, on the x-y slices of a cube with at least two rows and
    two columns. Arrays as in Model_Nbhood.v: the data have shape (h, w), the x coefficients (h, w - 1), the y coefficients (h - 1, w).
    Not modelled: names and coordinates of the coefficient cubes (:224-274 except the value check), padded coordinates, data types. *)
From Verif Require Import Base Model_Nbhood Model_Vicinity.
Local Open Scope Q_scope.

(** recursive_filter.py:51-147: one line of the loops; the new value of an entry uses the new value of its predecessor. *)
Fixpoint fwd (f a : Z -> Q) (k : nat) : Q :=
  match k with
  | O => f 0%Z
  | S j => (1 - a (Z.of_nat j)) * f (Z.of_nat k) + a (Z.of_nat j) * fwd f a j
  end.
Fixpoint bwd (f a : Z -> Q) (n : Z) (k : nat) : Q :=
  match k with
  | O => f (n - 1)%Z
  | S j => let i := (n - 1 - Z.of_nat k)%Z in (1 - a i) * f i + a i * bwd f a n j
  end.
Definition recurse_forward (f a : Z -> Q) (n : Z) : Z -> Q := fun i => fwd f a (Z.to_nat i).
Definition recurse_backward (f a : Z -> Q) (n : Z) : Z -> Q := fun i => bwd f a n (Z.to_nat (n - 1 - i)).
Definition sweep (f a : Z -> Q) (n : Z) : Z -> Q := recurse_backward (recurse_forward f a n) a n.
(** recursive_filter.py:149-196 [_run_recursion] on an array of shape (h, w). *)
Definition sweep_x (w : Z) (cx g : grid Q) : grid Q := fun i => sweep (g i) (cx i) w.
Definition sweep_y (h : Z) (cy g : grid Q) : grid Q := fun i j => sweep (fun k => g k j) (fun k => cy k j) h i.
Fixpoint run_recursion (n : nat) (h w : Z) (cx cy g : grid Q) : grid Q :=
  match n with O => g | S k => run_recursion k h w cx cy (sweep_y h cy (sweep_x w cx g)) end.
(** pad_spatial.py:165-219 [pad_cube_with_halo] with numpy's "symmetric", and :264-300 [remove_halo_from_cube]: data only. *)
Definition pad_symmetric (width h w : Z) (g : grid Q) : grid Q := fun i j => g (reflect h (i - width)) (reflect w (j - width)).
Definition remove_halo {A} (width : Z) (g : grid A) : grid A := fun i j => g (i + width)%Z (j + width)%Z.
(** generate_orographic_smoothing_coefficients.py:243-250: the coefficient between two cells is zeroed if either is masked. *)
Definition zero_masked_x (mask : grid bool) (cx : grid Q) : grid Q := fun i j => if (mask i j || mask i (j + 1)%Z)%bool then 0 else cx i j.
Definition zero_masked_y (mask : grid bool) (cy : grid Q) : grid Q := fun i j => if (mask i j || mask (i + 1)%Z j)%bool then 0 else cy i j.
(** recursive_filter.py:278-286 and :381-396: one slice. *)
Definition filter_slice (n : nat) (edge h w : Z) (cx cy g : grid Q) : grid Q :=
  let width := (2 * edge)%Z in
  remove_halo width (run_recursion n (h + 2 * width) (w + 2 * width) (pad_symmetric width h (w - 1) cx) (pad_symmetric width (h - 1) w cy)
    (pad_symmetric width h w g)).
(** recursive_filter.py:28-48. *)
Definition recursive_init (iterations : option Z) : result (option Z) :=
  match iterations with Some n => if (n <? 1)%Z then Err ValueError else Ok iterations | None => Ok iterations end.
(** recursive_filter.py:243: any coefficient above one half. *)
Definition too_large (h w : Z) (c : grid Q) : bool := existsb (fun p => (1 # 2) <? c (fst p) (snd p)) (indices h w).
(** recursive_filter.py:309-406 [process] on a cube whose slices are (values, mask); [times] is the number of time points. The result is
    the slices of the new cube and the two coefficient cubes as the caller finds them afterwards. Without a number of iterations the loop
    range(None) fails. *)
Definition any_masked (h w : Z) (m : grid bool) : bool := existsb (fun p => m (fst p) (snd p)) (indices h w).
Definition recursive_process (iterations : option Z) (edge h w times : Z) (slices : list (grid Q * grid bool)) (cx cy : grid Q)
    : result (list (grid Q * grid bool)) * (grid Q * grid Q) :=
  if (too_large h (w - 1) cx || too_large (h - 1) w cy)%bool then (Err ValueError, (cx, cy))
  else
    match slices with
    | [] => (Err StopIteration, (cx, cy))
    | first :: _ =>
        let masked := existsb (fun s => any_masked h w (snd s)) slices in
        if (masked && (1 <? times)%Z)%bool then (Err ValueError, (cx, cy))
        else
          let mask : grid bool := if masked then snd first else (fun _ _ => false) in
          let cx' := if masked then zero_masked_x mask cx else cx in
          let cy' := if masked then zero_masked_y mask cy else cy in
          match iterations with
          | None => (Err TypeError, (cx', cy'))
          | Some n => (Ok (map (fun s => (filter_slice (Z.to_nat n) edge h w cx' cy' (fst s), mask)) slices), (cx', cy'))
          end
    end.
