(** Model of improver/calibration/reliability_calibration.py: building, aggregating,
    manipulating and applying reliability tables. *)
From Verif Require Export Base Interp Model_Percentiles.

(** * Construction (lines 39-527) *)

(** lines 84-153 (_define_probability_bins). [rnd]: conversion to float32; [prev],
    [next]: np.nextafter towards 0 / 1. Arbitrary functions here; the theorems state
    what they assume about them. *)
Definition tolerance : Q := 1 # 1000000.
Definition lower_edges (rnd : Q -> Q) (n : nat) : list Q :=
  map (fun k => rnd (Qn k / Qn n)) (seq 0 (S n)).
Definition set_first_lo (v : Q) (bins : list (Q * Q)) : result (list (Q * Q)) :=
  match bins with [] => Err IndexError | (_, h) :: r => Ok ((v, h) :: r) end.
Fixpoint set_last_hi (v : Q) (bins : list (Q * Q)) : result (list (Q * Q)) :=
  match bins with
  | [] => Err IndexError
  | [(l, _)] => Ok [(l, v)]
  | b :: r => let* r' := set_last_hi v r in Ok (b :: r')
  end.
Definition plain_bins (rnd prev : Q -> Q) (n : nat) : list (Q * Q) :=
  map (fun k => (rnd (Qn k / Qn n), if (S k =? n)%nat then 1 else prev (rnd (Qn (S k) / Qn n)))) (seq 0 n).
Definition define_bins (rnd prev next : Q -> Q) (n : nat) (low up : bool) : result (list (Q * Q)) :=
  let* n' := (if low && up then (if (n <=? 2)%nat then Err ValueError else Ok (n - 2)%nat)
              else if low || up then (if (n =? 0)%nat then Err IndexError else Ok (n - 1)%nat) else Ok n) in
  let bins := plain_bins rnd prev n' in
  let* b1 := (if low then let* b := set_first_lo (next (rnd tolerance)) bins in Ok ((0, rnd tolerance) :: b) else Ok bins) in
  if up then let* b := set_last_hi (prev (rnd (1 - tolerance))) b1 in Ok (b ++ [(rnd (1 - tolerance), 1)]) else Ok b1.

(** lines 317-323: lower bounds plus an upper edge just above the last upper bound;
    slot = searchsorted(side="right") - 1, -1 addressing the last (discarded) slot. *)
Definition bin_edges (rnd : Q -> Q) (bins : list (Q * Q)) : list Q :=
  map fst bins ++ [rnd (snd (last bins (0, 0)) + tolerance)].
Definition slot (edges : list Q) (forecast : option Q) : nat :=
  let nb := (length edges - 1)%nat in
  match forecast with
  | None => nb (* NaN sorts after every edge *)
  | Some p => match searchsorted_right edges p with O => nb | S k => k end
  end.
(** One bin's (observation count, probability sum, forecast count). *)
Definition entry := (Q * Q * Q)%type.
Definition e_obs (e : entry) : Q := fst (fst e).
Definition e_prob (e : entry) : Q := snd (fst e).
Definition e_cnt (e : entry) : Q := snd e.
(** lines 293-354 (_populate_reliability_bins) at one point (unmasked forecast). *)
Definition populate (edges : list Q) (forecast : option Q) (truth : Q) : list entry :=
  map (fun b => if (b =? slot edges forecast)%nat
                then (if isclose truth 1 then 1 else 0, match forecast with Some p => p | None => 0 end, 1)
                else (0, 0, 0)) (seq 0 (length edges - 1)).
Definition zeros (edges : list Q) : list entry := map (fun _ => (0, 0, 0)) (seq 0 (length edges - 1)).
Definition add_entry (a b : entry) : entry := (e_obs a + e_obs b, e_prob a + e_prob b, e_cnt a + e_cnt b).
Definition add_col (a b : list entry) : list entry := map (fun p => add_entry (fst p) (snd p)) (combine a b).

(** A grid point of the table: its column of bins and its mask. *)
Record cell := { c_col : list entry; c_masked : bool }.
(** One time: per point, forecast and truth (None = masked truth). *)
Definition slice := list (option Q * option Q).
Definition has_mask (s : slice) : bool := existsb (fun ft => match snd ft with None => true | _ => false end) s.
(** lines 356-383 (_populate_masked_reliability_bins), data zeroed under the mask. *)
Definition populate_cell (edges : list Q) (ft : option Q * option Q) : cell :=
  match snd ft with
  | Some t => {| c_col := populate edges (fst ft) t; c_masked := false |}
  | None => {| c_col := zeros edges; c_masked := true |}
  end.
(** lines 385-426 (_add_reliability_tables): "and" of the masks if the new truth has a
    masked point; otherwise np.add, which takes the union of its operands' masks (the
    new table's being empty). *)
Definition add_tables (edges : list Q) (acc : list cell) (s : slice) : list cell :=
  map (fun p : cell * (option Q * option Q) =>
         let new := populate_cell edges (snd p) in
         {| c_col := add_col (c_col (fst p)) (c_col new);
            c_masked := if has_mask s then c_masked (fst p) && c_masked new else c_masked (fst p) || c_masked new |})
      (combine acc s).
(** lines 505-519 (process) for one threshold. *)
Definition build_table (edges : list Q) (times : list slice) : result (list cell) :=
  match times with
  | [] => Err StopIteration
  | s :: rest => Ok (fold_left (add_tables edges) rest (map (populate_cell edges) s))
  end.

(** * Aggregation (lines 530-607): per table its reference time bounds and one column. *)
Record agg_in := { a_lo : Z; a_hi : Z; a_col : list entry }.
Definition check_frt (l : list agg_in) : bool :=
  forallb (fun p : Z * Z => (fst p <? snd p)%Z) (combine (map a_hi l) (tl (map a_lo l))).
Definition sum_cols (l : list (list entry)) : list entry :=
  match l with [] => [] | c :: r => fold_left add_col r c end.
Definition aggregate (l : list agg_in) : result agg_in :=
  match l with
  | [] => Err ValueError
  | [a] => Ok a
  | a :: r => if check_frt l
              then Ok {| a_lo := fold_left Z.min (map a_lo r) (a_lo a); a_hi := fold_left Z.max (map a_hi r) (a_hi a);
                         a_col := sum_cols (map a_col l) |}
              else Err ValueError
  end.

(** * Manipulation (lines 610-1064); the arrays of counts, sums and bounds, which always
    have one length, are zipped into one list of bins. *)
Record rbin := { rb_obs : Q; rb_prob : Q; rb_cnt : Q; rb_lo : Q; rb_hi : Q }.
Definition rb0 : rbin := {| rb_obs := 0; rb_prob := 0; rb_cnt := 0; rb_lo := 0; rb_hi := 0 |}.
Definition merge2 (a b : rbin) : rbin :=
  {| rb_obs := rb_obs a + rb_obs b; rb_prob := rb_prob a + rb_prob b; rb_cnt := rb_cnt a + rb_cnt b;
     rb_lo := rb_lo a; rb_hi := rb_hi b |}.
(** lines 697-746 (_sum_pairs, _create_new_bin_coord) *)
Definition merge_at (upper : nat) (t : list rbin) : list rbin :=
  firstn (upper - 1) t ++ [merge2 (nth (upper - 1) t rb0) (nth upper t rb0)] ++ skipn (S upper) t.
(** lines 784-792: first position of the largest count below the minimum. *)
Fixpoint argmax_below (m : Q) (l : list Q) (i : nat) (best : option (nat * Q)) : option nat :=
  match l with
  | [] => option_map fst best
  | c :: r =>
      let best' := if m <=? c then best
                   else match best with
                        | None => Some (i, c)
                        | Some (_, v) => if v <? c then Some (i, c) else best
                        end in
      argmax_below m r (S i) best'
  end.
(** lines 795-806 *)
Definition pick_upper (counts : list Q) (index : nat) : nat :=
  if (index =? 0)%nat then 1%nat
  else if (S index =? length counts)%nat then index
  else if nth (index - 1) counts 0 <? nth (S index) counts 0 then index else S index.
(** lines 748-820 (_combine_undersampled_bins): None = fuel exhausted. *)
Fixpoint combine_undersampled (fuel : nat) (m : Q) (t : list rbin) : option (list rbin) :=
  let counts := map rb_cnt t in
  if existsb (fun c => c <? m) counts && (1 <? length t)%nat then
    match fuel with
    | O => None
    | S f => match argmax_below m counts 0 None with
             | None => None (* nanargmax of all-NaN: cannot happen, see the theorems *)
             | Some i => combine_undersampled f m (merge_at (pick_upper counts i) t)
             end
    end
  else Some t.
(** observation_count / forecast_count *)
Definition freq (b : rbin) : Q := rb_obs b / rb_cnt b.
(** lines 822-870 (_combine_bin_pair): from the top, the first decreasing pair. *)
Fixpoint first_drop (fr : list Q) (upper : nat) : option nat :=
  match upper with
  | O => None
  | S k => if (nth upper fr 0 - nth k fr 0) <? 0 then Some upper else first_drop fr k
  end.
Definition combine_bin_pair (t : list rbin) : list rbin :=
  match first_drop (map freq t) (length t - 1) with Some u => merge_at u t | None => t end.
(** lines 872-918 (_assume_constant_observation_frequency) *)
Fixpoint hold_up (prev : Q) (l : list Q) : list Q :=
  match l with [] => [] | x :: r => let v := if (x - prev) <? 0 then prev else x in v :: hold_up v r end.
Fixpoint hold_down (prev : Q) (l : list Q) : list Q :=
  match l with [] => [] | x :: r => let v := if 0 <? (x - prev) then prev else x in v :: hold_down v r end.
Definition constant_freq (counts fr : list Q) : list Q :=
  if hd 0 counts <? last counts 0
  then match rev fr with [] => [] | x :: r => rev (x :: hold_down x r) end
  else match fr with [] => [] | x :: r => x :: hold_up x r end.
Definition assume_constant (t : list rbin) : list rbin :=
  map (fun p : Q * rbin => {| rb_obs := fst p * rb_cnt (snd p); rb_prob := rb_prob (snd p); rb_cnt := rb_cnt (snd p);
                              rb_lo := rb_lo (snd p); rb_hi := rb_hi (snd p) |})
      (combine (constant_freq (map rb_cnt t) (map freq t)) t).
(** lines 633-663 and 954-1019 (_enforce_min_count_and_montonicity) *)
Definition manipulate (m : Q) (t : list rbin) : result (list rbin) :=
  if m <? 1 then Err ValueError
  else match combine_undersampled (length t) m t with
       | None => Err OutOfFuel
       | Some t1 =>
           Ok (if nondecreasing_b (map freq t1) then t1 else assume_constant (combine_bin_pair t1))
       end.

(** * Application (lines 1189-1287) *)
(** scipy.interpolate.interp1d(xs, ys, fill_value="extrapolate")(x), xs ascending. *)
Definition interp1d (xs ys : list Q) (x : Q) : Q :=
  let hi := Nat.min (Nat.max (searchsorted xs x) 1) (length xs - 1) in
  let lo := (hi - 1)%nat in
  lerp (nth lo xs 0) (nth lo ys 0) (nth hi xs 0) (nth hi ys 0) x.
Definition set_ends (a b : Q) (l : list Q) : list Q :=
  match l with
  | [] => []
  | _ :: r => match rev r with [] => [b] | _ :: m => a :: rev m ++ [b] end
  end.
Definition interpolate (xs ys : list Q) (p : Q) : Q :=
  let xp := set_ends 0 1 xs in
  let fp := set_ends (interp1d xs ys 0) (interp1d xs ys 1) ys in
  clip 0 1 (np_interp (combine xp fp) p).
Definition mean_prob (b : rbin) : Q := rb_prob b / rb_cnt b.
(** lines 1189-1228, 1304-1330: one threshold; None = masked. *)
Definition calibrate (t : list rbin) (p : option Q) : option Q :=
  if (length t <? 2)%nat then p
  else option_map (interpolate (map mean_prob t) (map freq t)) p.
