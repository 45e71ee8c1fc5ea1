(** Model of improver/nbhood/nbhood.py (NeighbourhoodProcessing on real data) and improver/utilities/neighbourhood_tools.py (boxsum)
    on one x-y slice. An array is its shape (h rows, w columns) and the function from indices to entries; entries outside the shape are
    never read unless a definition says so. Data are exact rationals; NaN is None. Complex data, data types, cubes and their slicing
    are not modelled. *)
From Verif Require Import Base.
Local Open Scope Q_scope.

Definition grid (A : Type) := Z -> Z -> A.

(** Sum of n consecutive entries from index a. *)
Fixpoint zsum (a : Z) (n : nat) (f : Z -> Q) : Q := match n with O => 0 | S k => f a + zsum (a + 1) k f end.

(** numpy.pad(mode="constant"): [before] rows and columns before the data, so entry (i, j) is entry (i - before, j - before) of the data
    or the constant. *)
Definition inside (h w i j : Z) : bool := (Z.leb 0 i && Z.ltb i h && Z.leb 0 j && Z.ltb j w)%bool.
Definition padded (before h w : Z) (c : Q) (g : grid Q) : grid Q :=
  fun i j => if inside h w (i - before) (j - before) then g (i - before)%Z (j - before)%Z else c.
(** cumsum(-2) and cumsum(-1), neighbourhood_tools.py:202. *)
Definition cumsum_rows (g : grid Q) : grid Q := fun i j => zsum 0 (Z.to_nat (i + 1)) (fun k => g k j).
Definition cumsum_cols (g : grid Q) : grid Q := fun i j => zsum 0 (Z.to_nat (j + 1)) (fun k => g i k).
(** neighbourhood_tools.py:104-211 [pad_boxsum], [boxsum] with mode="constant", constant_values=c. *)
Definition boxsum (h w size : Z) (c : Q) (g : grid Q) : result (grid Q) :=
  if Z.even size then Err ValueError
  else
    let half := (size / 2)%Z in
    let data := cumsum_cols (cumsum_rows (padded (half + 1) h w c g)) in
    Ok (fun y x => data (size + y)%Z (size + x)%Z - data y (size + x)%Z + data y x - data (size + y)%Z x).

(** nbhood.py:55-92 [circular_kernel], entry at offset (dy, dx) from the centre. *)
Definition circular_kernel (ranges : Z) (weighted : bool) : grid Q := fun dy dx =>
  let area := (ranges * ranges)%Z in
  let d2 := (dy * dy + dx * dx)%Z in
  if weighted then (let k := (inject_Z area - inject_Z d2) / inject_Z area in if k <? 0 then 0 else k)
  else if Z.ltb area d2 then 0 else 1.
(** scipy.ndimage.correlate(mode="nearest"): indices outside are clipped to the nearest edge. *)
Definition nearest (n i : Z) : Z := Z.max 0 (Z.min (n - 1) i).
Definition correlate (h w ranges : Z) (kernel g : grid Q) : grid Q := fun y x =>
  zsum (- ranges) (Z.to_nat (2 * ranges + 1)) (fun dy => zsum (- ranges) (Z.to_nat (2 * ranges + 1)) (fun dx =>
    kernel dy dx * g (nearest h (y + dy)) (nearest w (x + dx)))).

Inductive method := Square | Circular (weighted : bool).
Definition raw_sum (m : method) (ranges h w : Z) (c : Q) (g : grid Q) : result (grid Q) :=
  match m with
  | Square => boxsum h w (2 * ranges + 1) c g
  | Circular weighted => Ok (correlate h w ranges (circular_kernel ranges weighted) g)
  end.

(** nbhood.py:359-371: the box of the entries that differ from an extreme, with a buffer. *)
Definition zseq (n : Z) : list Z := map Z.of_nat (seq 0 (Z.to_nat n)).
Definition indices (h w : Z) : list (Z * Z) := list_prod (zseq h) (zseq w).
Definition lmin (d : Z) (l : list Z) : Z := fold_right Z.min d l.
Definition lmax (d : Z) (l : list Z) : Z := fold_right Z.max d l.
Record box := { ystart : Z; ystop : Z; xstart : Z; xstop : Z }.
Definition differing (h w : Z) (e : Q) (g : grid Q) : list (Z * Z) := filter (fun p => negb (g (fst p) (snd p) =? e)) (indices h w).
Definition bounding (h w half : Z) (e : Q) (g : grid Q) : box :=
  match differing h w e g with
  | [] => {| ystart := 0; ystop := 0; xstart := 0; xstop := 0 |}
  | p :: r =>
      let ys := map fst (p :: r) in let xs := map snd (p :: r) in
      {| ystart := Z.max 0 (lmin (fst p) ys - half); ystop := Z.min h (lmax (fst p) ys + 1 + half);
         xstart := Z.max 0 (lmin (snd p) xs - half); xstop := Z.min w (lmax (snd p) xs + 1 + half) |}
  end.
Definition box_size (b : box) : Z := ((ystop b - ystart b) * (xstop b - xstart b))%Z.
(** nbhood.py:343-383: the loop over the two extremes keeps the smaller box. *)
Definition choice := (Z * Q * grid Q * box)%type. (* size, extreme, fill value, box *)
Definition consider (h w half : Z) (g : grid Q) (s : choice) (ef : Q * option (grid Q)) : choice :=
  match snd ef with
  | None => s
  | Some fill =>
      let b := bounding h w half (fst ef) g in
      let '(size, _, _, _) := s in
      if (box_size b <? size)%Z then (box_size b, fst ef, fill, b) else s
  end.
Definition choose (h w half : Z) (g : grid Q) (max_extreme : option (grid Q)) : choice :=
  fold_left (consider h w half g) [(0, Some (fun _ _ => 0)); (1, max_extreme)]
    ((h * w)%Z, 0, (fun _ _ => 0), {| ystart := 0; ystop := h; xstart := 0; xstop := w |}).
(** nbhood.py:319-409 [_do_nbhood_sum]. *)
Definition do_nbhood_sum (m : method) (ranges h w : Z) (g : grid Q) (max_extreme : option (grid Q)) : result (grid Q) :=
  let '(size, extreme, fill, b) := choose h w ranges g max_extreme in
  if (size =? 0)%Z then Ok fill
  else
    let cropped := fun i j => g (ystart b + i)%Z (xstart b + j)%Z in
    let* s := raw_sum m ranges (ystop b - ystart b) (xstop b - xstart b) extreme cropped in
    if (size =? h * w)%Z then Ok s
    else Ok (fun y x => if inside (ystop b - ystart b) (xstop b - xstart b) (y - ystart b) (x - xstart b)
                        then s (y - ystart b)%Z (x - xstart b)%Z else fill y x).

(** nbhood.py:244-317 [_calculate_neighbourhood]. [own] is the mask of the data, [mask] the mask_cube (0: invalid). Minimum and maximum
    are those of the data not masked by [own]; without any the result is NaN everywhere. The result pairs each value with its mask. *)
Definition qmin_list (l : list Q) : option Q := match l with [] => None | x :: r => Some (qminl x r) end.
Definition qmax_list (l : list Q) : option Q := match l with [] => None | x :: r => Some (qmaxl x r) end.
Definition unmasked_values (h w : Z) (own : grid bool) (g : grid Q) : list Q :=
  map (fun p => g (fst p) (snd p)) (filter (fun p => negb (own (fst p) (snd p))) (indices h w)).
Definition calculate_neighbourhood (m : method) (ranges : Z) (sum_only re_mask : bool) (h w : Z) (data : grid Q) (own : grid bool)
    (mask : option (grid Q)) : result (grid (option Q * bool)) :=
  let data_mask : grid bool := fun i j => (match mask with Some k => k i j =? 0 | None => false end || own i j)%bool in
  let valid : grid Q := fun i j => if data_mask i j then 0 else 1 in
  let zeroed : grid Q := fun i j => if data_mask i j then 0 else data i j in
  let out : grid (option Q) -> result (grid (option Q * bool)) := fun v => Ok (fun i j => (v i j, (re_mask && data_mask i j)%bool)) in
  if sum_only then
    let* s := do_nbhood_sum m ranges h w zeroed None in out (fun i j => Some (s i j))
  else
    let* area := do_nbhood_sum m ranges h w valid None in
    let* s := do_nbhood_sum m ranges h w zeroed (Some area) in
    let vs := unmasked_values h w own data in
    out (fun i j =>
      if area i j =? 0 then None
      else match qmin_list vs, qmax_list vs with
           | Some lo, Some hi => Some (clip lo hi (s i j / area i j))
           | _, _ => None
           end).
