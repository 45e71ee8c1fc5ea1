(** Model of improver/ensemble_copula_coupling/ensemble_copula_coupling.py, class
    EnsembleReordering (lines 1288-1558), and improver/utilities/indexing_operations.py. *)
From Verif Require Export Base Model_Percentiles.

(** np.lexsort((rnd, raw)) along the member axis: positions ordered by raw, then rnd,
    then (the sort is stable) position. *)
Definition lex_leb (raw rnd : list Q) (i j : nat) : bool :=
  (nth i raw 0 <? nth j raw 0) ||
  ((nth i raw 0 =? nth j raw 0) &&
   ((nth i rnd 0 <? nth j rnd 0) || ((nth i rnd 0 =? nth j rnd 0) && (i <=? j)%nat))).
Definition lexsort (raw rnd : list Q) : list nat := isort (lex_leb raw rnd) (seq 0 (length raw)).

(** np.argsort of an integer vector / of a float vector (equal keys: by position). *)
Definition nat_argsort (l : list nat) : list nat :=
  isort (fun i j => (nth i l 0 <? nth j l 0)%nat || ((nth i l 0 =? nth j l 0)%nat && (i <=? j)%nat)) (seq 0 (length l)).
Definition q_argsort (l : list Q) : list nat :=
  isort (fun i j => (nth i l 0 <? nth j l 0) || ((nth i l 0 =? nth j l 0) && (i <=? j)%nat)) (seq 0 (length l)).

(** indexing_operations.py lines 11-85 (choose) at one grid point. *)
Definition choose (ranking : list nat) (vals : list Q) : result (list Q) :=
  if negb (length ranking =? length vals)%nat then Err ValueError
  else match ranking with
       | [] => Err ValueError (* max of an empty array *)
       | _ => if forallb (fun r => r <? length vals)%nat ranking
              then Ok (map (fun r => nth r vals 0) ranking) else Err IndexError
       end.

(** ensemble_copula_coupling.py lines 1410-1433 at one grid point: [mask] is the mask
    of the calibrated values (one flag per percentile), kept in place. *)
Record ecc_point := { ep_raw : list Q; ep_cal : list Q; ep_mask : list bool }.
Definition rank_point (random_ordering : bool) (rnd : list Q) (p : ecc_point) : result (list (option Q)) :=
  let ranking := if random_ordering then q_argsort rnd else nat_argsort (lexsort (ep_raw p) rnd) in
  let* out := choose ranking (ep_cal p) in
  Ok (map (fun mv : bool * Q => if fst mv then None else Some (snd mv)) (combine (ep_mask p) out)).

(** The variable random_seed: its initial value, or the RandomState stored in it. *)
Inductive seed := SeedNone | SeedInt (z : Z) | SeedState.

(** lines 1402-1434: the loop over times. [rng s] is the random field drawn from a
    fresh RandomState(s): one vector of draws per grid point. int(RandomState) raises. *)
Fixpoint rank_loop (rng : option Z -> list (list Q)) (random_ordering : bool) (s : seed)
  (times : list (list ecc_point)) : result (list (list (list (option Q)))) :=
  match times with
  | [] => Ok []
  | t :: rest =>
      let* z := match s with SeedNone => Ok None | SeedInt z => Ok (Some z) | SeedState => Err TypeError end in
      let* o := mapM (fun rp : list Q * ecc_point => rank_point random_ordering (fst rp) (snd rp)) (combine (rng z) t) in
      let* r := rank_loop rng random_ordering SeedState rest in
      Ok (o :: r)
  end.

(** Positions at which the realization coordinate equals [r] (iris.Constraint). *)
Definition positions (points : list Z) (r : Z) : list nat :=
  filter (fun i => (nth i points 0 =? r)%Z) (seq 0 (length points)).

(** lines 1334-1365 (_recycle_raw_ensemble_realizations): new realization numbers and,
    for each new slot, the position of the member used. Extracting several members
    with one number cannot be merged. *)
Definition recycle (plen : nat) (points : list Z) : result (list Z * list nat) :=
  let mlen := length points in
  if (plen =? mlen)%nat then Ok (points, seq 0 mlen)
  else
    let realization_list := map (fun i => nth (i mod mlen) points 0%Z) (seq 0 plen) in
    match realization_list with
    | [] => Err IndexError
    | first :: _ =>
        let* pos := mapM (fun r => match positions points r with [k] => Ok k | _ => Err MergeError end) realization_list in
        Ok (map (fun i => (first + Z.of_nat i)%Z) (seq 0 plen), pos)
    end.

(** lines 1441-1497 (_check_input_cube_masks). Each point carries the masks of its calibrated
    values and of its raw members; numpy calls data masked when any value is. Rejected are, when both
    are masked, a calibrated mask differing from that of the first percentile or a raw mask differing from
    it, and a masked raw forecast beside an unmasked calibrated one. *)
Definition any_masked (l : list (list bool)) : bool := existsb (existsb (fun b => b)) l.
Definition masks_ok (points : list (list bool * list bool)) : bool :=
  let cal_masked := any_masked (map fst points) in
  let raw_masked := any_masked (map snd points) in
  if cal_masked && raw_masked then
    forallb (fun cr : list bool * list bool =>
      let m0 := hd false (fst cr) in
      forallb (Bool.eqb m0) (tl (fst cr)) && forallb (Bool.eqb m0) (snd cr)) points
  else negb (raw_masked && negb cal_masked).

(** lines 1499-1558 (process) for data of several times: percentile points, calibrated
    values, raw members. Coordinate reordering and merging are iris', not modelled. *)
Definition ecc_process (rng : option Z -> list (list Q)) (random_ordering : bool) (s : seed)
  (pcts : list Q) (members : list Z) (times : list (list ecc_point))
  : result (list Z * list (list (list (option Q)))) :=
  let* (nums, pos) := recycle (length pcts) members in
  let recycled := map (map (fun p => {| ep_raw := map (fun k => nth k (ep_raw p) 0) pos; ep_cal := ep_cal p; ep_mask := ep_mask p |})) times in
  let* out := rank_loop rng random_ordering s recycled in
  let* n := rebadge_as_realizations pcts false (Some nums) in
  Ok (n, out).
