(** C15, C16, C17. *)
From Verif Require Import Base Model_Percentiles Model_Reordering Proofs_Reordering.

(** * C15 *)
(** The whole call: at every point a permutation of the calibrated values, in the order
    of the (recycled) raw members; slot i uses raw member i mod M. *)
Theorem C15_process rng random_ordering s pcts members t nums out : NoDup members -> members <> [] -> pcts <> [] ->
  (forall z, length (rng z) = length t /\ Forall (fun r => length r = length pcts) (rng z)) ->
  Forall (fun p => length (ep_cal p) = length pcts /\ length (ep_mask p) = length pcts /\ Forall (fun b => b = false) (ep_mask p)) t ->
  ecc_process rng random_ordering s pcts members [t] = Ok (nums, [out]) ->
  Forall2 (fun p o => exists vals, o = map Some vals /\ Permutation (ep_cal p) vals /\
     (random_ordering = false -> qsorted (ep_cal p) -> forall i j, (i < length pcts)%nat -> (j < length pcts)%nat ->
       nth (i mod length members) (ep_raw p) 0 < nth (j mod length members) (ep_raw p) 0 -> nth i vals 0 <= nth j vals 0)) t out.
Proof. exact (process_values rng random_ordering s pcts members t nums out). Qed.
(** One point: which of two members gets the lower calibrated value is decided by the
    raw value, among equal raw values by the random draw, among equal draws by position. *)
Theorem C15_rank_order rnd p out i j : length rnd = length (ep_raw p) -> length (ep_mask p) = length (ep_cal p) ->
  Forall (fun b => b = false) (ep_mask p) -> qsorted (ep_cal p) -> rank_point false rnd p = Ok out ->
  (i < length (ep_raw p))%nat -> (j < length (ep_raw p))%nat ->
  (nth i (ep_raw p) 0 < nth j (ep_raw p) 0 \/
   (nth i (ep_raw p) 0 == nth j (ep_raw p) 0 /\ (nth i rnd 0 < nth j rnd 0 \/ (nth i rnd 0 == nth j rnd 0 /\ (i < j)%nat)))) ->
  exists ri rj x y, nth i out None = Some x /\ nth j out None = Some y /\ x <= y /\
    (ri < rj < length (ep_cal p))%nat /\ x = nth ri (ep_cal p) 0 /\ y = nth rj (ep_cal p) 0.
Proof. exact (rank_point_order rnd p out i j). Qed.
Theorem C15_permutation random_ordering rnd p out : length rnd = length (ep_raw p) -> length (ep_mask p) = length (ep_cal p) ->
  Forall (fun b => b = false) (ep_mask p) -> rank_point random_ordering rnd p = Ok out -> exists vals,
  out = map Some vals /\ Permutation (ep_cal p) vals.
Proof. exact (rank_point_values random_ordering rnd p out). Qed.
Theorem C15_total random_ordering rnd p : length rnd = length (ep_raw p) -> length (ep_cal p) = length (ep_raw p) -> ep_raw p <> [] ->
  exists out, rank_point random_ordering rnd p = Ok out.
Proof. exact (rank_point_total random_ordering rnd p). Qed.
Theorem C15_masked_point random_ordering rnd p out : rank_point random_ordering rnd p = Ok out ->
  Forall (fun b => b = true) (ep_mask p) -> Forall (fun o => o = None) out.
Proof. exact (rank_point_all_masked random_ordering rnd p out). Qed.
(** Which masks are accepted: the raw forecast is not masked anywhere; or the calibrated one is masked somewhere and at
    every point all calibrated values and all raw members agree on being masked. *)
Theorem C15_masks_accepted points : Forall (fun cr => fst cr <> []) points -> masks_ok points = true <->
  (forall m, In m (map snd points) -> ~ In true m) \/
  ((exists m, In m (map fst points) /\ In true m) /\ forall c r, In (c, r) points -> exists b, forall x, In x c \/ In x r -> x = b).
Proof. exact (masks_ok_iff points). Qed.
Example C15_masks_case : masks_ok [([true; true], [true; true]); ([false; false], [false; false])] = true /\
  masks_ok [([false; false], [true; false])] = false /\ masks_ok [([true; true], [true; false])] = false.
Proof. repeat split. Qed.
(** A mask that differs between percentiles is accepted when the raw forecast is not
    masked; then a masked calibrated value appears unmasked in the output. *)
Theorem C15_partial_mask_refuted : exists rnd p out, rank_point false rnd p = Ok out /\
  masks_ok [(ep_mask p, [false; false])] = true /\
  ep_mask p = [true; false] /\ nth 1 out None = Some (nth 0 (ep_cal p) 0) /\ nth 0 (ep_cal p) 0 == 7.
Proof. exact mask_leak. Qed.
Example C15_case : ecc_process (fun _ => [[1#2; 1#4; 1#3; 1#5]]) false (SeedInt 0) [20; 40; 60; 80] [0; 1]%Z
  [[{| ep_raw := [5; 3]; ep_cal := [1; 2; 3; 4]; ep_mask := [false; false; false; false] |}]] =
  Ok ([0; 1; 2; 3]%Z, [[[Some 4; Some 2; Some 3; Some 1]]]).
Proof. vm_compute. reflexivity. Qed.

(** * C16 *)
Theorem C16_cyclic plen points : NoDup points -> points <> [] -> (0 < plen)%nat -> plen <> length points ->
  recycle plen points = Ok (map (fun i => (hd 0 points + Z.of_nat i)%Z) (seq 0 plen), map (fun i => (i mod length points)%nat) (seq 0 plen)).
Proof. exact (recycle_spec plen points). Qed.
Theorem C16_equal_sizes points : recycle (length points) points = Ok (points, seq 0 (length points)).
Proof. exact (recycle_same points). Qed.
Theorem C16_even_use plen points nums pos k k' : NoDup points -> points <> [] -> (0 < plen)%nat -> recycle plen points = Ok (nums, pos) ->
  (k < length points)%nat -> (k' < length points)%nat ->
  length nums = plen /\ length pos = plen /\ (count_occ Nat.eq_dec pos k <= S (count_occ Nat.eq_dec pos k'))%nat.
Proof.
  intros HN HE HP H Hk Hk'. destruct (recycle_any plen points HN HE HP) as (nums' & E & En). rewrite E in H. injection H as <- <-.
  rewrite map_length, seq_length, En. repeat split; [|exact (count_even (length points) plen k k' Hk Hk')].
  destruct (Nat.eqb_spec plen (length points)) as [->|]; [reflexivity|]. rewrite map_length, seq_length. reflexivity.
Qed.
Theorem C16_numbers rng random_ordering s pcts members t nums out : NoDup members -> members <> [] -> pcts <> [] ->
  (forall z, length (rng z) = length t /\ Forall (fun r => length r = length pcts) (rng z)) ->
  ecc_process rng random_ordering s pcts members [t] = Ok (nums, [out]) ->
  nums = if (length pcts =? length members)%nat then members else map (fun i => (hd 0 members + Z.of_nat i)%Z) (seq 0 (length pcts)).
Proof. exact (fun a b c d e => proj1 (process_single rng random_ordering s pcts members t nums out a b c d e)). Qed.
Example C16_case : recycle 5 [3; 7]%Z = Ok ([3; 4; 5; 6; 7]%Z, [0; 1; 0; 1; 0]%nat).
Proof. reflexivity. Qed.

(** * C17 *)
Theorem C17_one_time_partial rng random_ordering s t : s <> SeedState ->
  (forall z, Forall2 (fun r p => length r = length (ep_raw p) /\ length (ep_cal p) = length (ep_raw p) /\ ep_raw p <> []) (rng z) t) ->
  exists o, rank_loop rng random_ordering s [t] = Ok [o].
Proof. exact (loop_single rng random_ordering s t). Qed.
(** With two or more times every call fails, whatever the seed (None included). *)
Theorem C17_several_times_refuted rng random_ordering s pcts members t1 t2 rest : NoDup members -> members <> [] -> pcts <> [] ->
  (forall z, Forall2 (fun r p => length r = length pcts /\ length (ep_cal p) = length pcts) (rng z) t1) ->
  ecc_process rng random_ordering s pcts members (t1 :: t2 :: rest) = Err TypeError.
Proof. exact (process_many rng random_ordering s pcts members t1 t2 rest). Qed.
Example C17_case :
  let p := {| ep_raw := [5; 3]; ep_cal := [1; 2]; ep_mask := [false; false] |} in
  ecc_process (fun _ => [[1#2; 1#4]]) false SeedNone [33 + (1#3); 66 + (2#3)] [0; 1]%Z [[p]] = Ok ([0; 1]%Z, [[[Some 2; Some 1]]]) /\
  ecc_process (fun _ => [[1#2; 1#4]]) false SeedNone [33 + (1#3); 66 + (2#3)] [0; 1]%Z [[p]; [p]] = Err TypeError.
Proof. vm_compute. split; reflexivity. Qed.

Print Assumptions C15_process.
Print Assumptions C15_rank_order.
Print Assumptions C15_permutation.
Print Assumptions C15_total.
Print Assumptions C15_masked_point.
Print Assumptions C15_masks_accepted.
Print Assumptions C15_partial_mask_refuted.
Print Assumptions C16_cyclic.
Print Assumptions C16_equal_sizes.
Print Assumptions C16_even_use.
Print Assumptions C16_numbers.
Print Assumptions C17_one_time_partial.
Print Assumptions C17_several_times_refuted.
