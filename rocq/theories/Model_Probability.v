(** Model of improver/utilities/probability_manipulation.py,
    improver/metadata/probabilistic.py (direction), improver/between_thresholds.py,
    improver/expected_value.py and the monotonicity step of
    improver/calibration/reliability_calibration.py.
    A probability cube is its name, the spp__relative_to_threshold attribute of its
    threshold coordinate, the threshold points, and one column of probabilities
    (one per threshold) for each grid point. *)
From Verif Require Export Base Model_Threshold Model_Percentiles.

Record pcube := { pc_name : string; pc_attr : string; pc_thr : list Q; pc_cols : list (list Q) }.

(** Python's str.replace(old, new): leftmost, non-overlapping, all occurrences.
    [k] counts characters of the current occurrence still to be skipped. *)
Fixpoint replace_from (k : nat) (old new s : string) : string :=
  match s with
  | EmptyString => EmptyString
  | String c r =>
      match k with
      | S k' => replace_from k' old new r
      | O => if String.prefix old s then append new (replace_from (String.length old - 1) old new r)
             else String c (replace_from 0 old new r)
      end
  end.
Definition replace (old new s : string) : string := replace_from 0 old new s.

(** Python's  w in s. *)
Fixpoint contains (w s : string) : bool :=
  String.prefix w s || match s with EmptyString => false | String _ r => contains w r end.

(** probability_manipulation.py lines 127-136: the set comprehension over the table and
    its unpacking into exactly one inverse (ValueError otherwise). *)
Definition inverse_attr (attr : string) : result string :=
  let inverses := nodup string_dec
    (map (fun kv : string * cmp => cmp_inverse_key (snd kv))
         (filter (fun kv : string * cmp => String.eqb (spp_string (snd kv)) attr) cmp_table)) in
  match inverses with
  | [k] => match cmp_lookup k with Some c => Ok (spp_string c) | None => Err KeyError end
  | _ => Err ValueError
  end.

(** lines 142-146. *)
Definition invert_name (n : string) : string :=
  if contains "above" n then replace "above" "below" n else replace "below" "above" n.

(** lines 103-149 (invert_probabilities). *)
Definition invert_probabilities (c : pcube) : result pcube :=
  let* a := inverse_attr (pc_attr c) in
  Ok {| pc_name := invert_name (pc_name c); pc_attr := a; pc_thr := pc_thr c;
        pc_cols := map (map (fun p => 1 - p)) (pc_cols c) |}.

Definition mem_str (s : string) (l : list string) : bool := existsb (String.eqb s) l.

(** lines 59-100 (to_threshold_inequality). *)
Definition to_threshold_inequality (c : pcube) (above : bool) : result pcube :=
  let above_attr := map spp_string [GE; GT] in
  let below_attr := map spp_string [LE; LT] in
  if (mem_str (pc_attr c) below_attr && above) || (mem_str (pc_attr c) above_attr && negb above)
  then invert_probabilities c else Ok c.

(** metadata/probabilistic.py lines 182-190 (probability_is_above_or_below). *)
Definition direction (attr : string) : option relation :=
  if mem_str attr ["above"; "greater_than"; "greater_than_or_equal_to"]%string then Some Above
  else if mem_str attr ["below"; "less_than"; "less_than_or_equal_to"]%string then Some Below
  else None.

(** * between_thresholds.py *)

(** lines 46-51 (__init__): np.diff over each (lower, upper) pair. *)
Definition between_init (ranges : list (Q * Q)) : result (list (Q * Q)) :=
  if existsb (fun r : Q * Q => snd r - fst r <? (1 # 100000)) ranges then Err ValueError else Ok ranges.

(** line 79: np.isclose(point, t, atol=1e-5) (rtol 1e-5 is numpy's default). *)
Definition close_to (point t : Q) : bool := Qabs (point - t) <=? (1 # 100000) + (1 # 100000) * Qabs t.

(** lines 77-92: the positions the constraint selects. *)
Definition matching (thr : list Q) (t : Q) : list nat :=
  filter (fun i => close_to (nth i thr 0) t) (seq 0 (length thr)).

(** line 76: t_range.sort(). *)
Definition sort_pair (r : Q * Q) : Q * Q := if fst r <=? snd r then r else (snd r, fst r).

(** lines 101-127 (_get_multiplier). *)
Definition multiplier (attr : string) : result Q :=
  match direction attr with Some Above => Ok 1 | Some Below => Ok (-1) | None => Err ValueError end.

(** One output slice: threshold bounds and the value at each point. *)
Record between := { bt_lower : Q; bt_upper : Q; bt_data : list Q }.

(** lines 74-99 and 140-153 for one range. An extraction that selects several
    thresholds makes the data (or bounds) shapes disagree: ValueError. *)
Definition between_one (m : Q) (c : pcube) (r : Q * Q) : result between :=
  let r := sort_pair r in
  match matching (pc_thr c) (fst r), matching (pc_thr c) (snd r) with
  | [i], [j] => Ok {| bt_lower := nth i (pc_thr c) 0; bt_upper := nth j (pc_thr c) 0;
                      bt_data := map (fun col => (nth i col 0 - nth j col 0) * m) (pc_cols c) |}
  | _, _ => Err ValueError
  end.

(** lines 177-208 (process), threshold units equal to the cube's; the final
    merge_cube of the slices is not modelled (slices in the order requested). *)
Definition between_process (ranges : list (Q * Q)) (c : pcube) : result (list between) :=
  let avail r := negb (match matching (pc_thr c) (fst r) with [] => true | _ => false end) &&
                 negb (match matching (pc_thr c) (snd r) with [] => true | _ => false end) in
  if negb (forallb (fun r => avail (sort_pair r)) ranges) then Err ValueError
  else let* m := multiplier (pc_attr c) in mapM (between_one m c) ranges.

(** * expected_value.py *)

(** Steps between neighbours (np.diff) are [diffs]; midpoints, lines 80-82. *)
Fixpoint midpoints (l : list Q) : list Q :=
  match l with
  | x :: ((y :: _) as r) => (x + (1 # 2) * (y - x)) :: midpoints r
  | _ => []
  end.

(** lines 54-63; [eps] is np.finfo(thresholds.dtype).eps. *)
Definition expand_thresholds (eps : Q) (thr : list Q) : list Q :=
  let t0 := hd 0 thr in let tn := last thr 0 in
  (t0 - Qmax eps (Qabs (t0 * eps))) :: thr ++ [tn + Qmax eps (Qabs (tn * eps))].

Definition dot (a b : list Q) : Q := qsum (zipw Qmult a b).

(** lines 27-103 (integrate_over_thresholds): one value per grid point. float32 casts
    are not modelled. *)
Definition integrate_over_thresholds (eps : Q) (c0 : pcube) : result (list Q) :=
  let* c := to_threshold_inequality c0 false in
  if existsb (fun d => d <=? 0) (diffs (pc_thr c)) then Err ValueError
  else
    let ext := expand_thresholds eps (pc_thr c) in
    let pdfs := map (fun col => diffs (0 :: col ++ [1])) (pc_cols c) in
    if existsb (existsb (fun d => d <? 0)) pdfs then Err ValueError
    else Ok (map (fun pdf => dot pdf (midpoints ext)) pdfs).

(** * reliability_calibration.py lines 1136-1187 (_ensure_monotonicity_across_thresholds).
    [vector_threshold]: the merged cube has threshold as its leading dimension; with a
    single threshold it is a scalar coordinate and unpacking its dimension fails. *)
Definition nonincreasing_b (l : list Q) : bool := nondecreasing_b (rev l).
Definition ensure_monotonicity (vector_threshold : bool) (c : pcube) : result pcube :=
  if negb vector_threshold then Err ValueError
  else
  let set cols := {| pc_name := pc_name c; pc_attr := pc_attr c; pc_thr := pc_thr c; pc_cols := cols |} in
  match direction (pc_attr c) with
  | None => Err ValueError
  | Some Above =>
      if forallb nonincreasing_b (pc_cols c) then Ok c
      else Ok (set (map (fun col => rev (qsort col)) (pc_cols c)))
  | Some Below =>
      if forallb nondecreasing_b (pc_cols c) then Ok c
      else Ok (set (map qsort (pc_cols c)))
  end.
