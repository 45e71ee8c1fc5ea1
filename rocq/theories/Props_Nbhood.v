(** C36: what neighbourhood processing computes on one x-y slice. *)
From Verif Require Import Base Model_Nbhood Spec_Nbhood Proofs_Nbhood.
Local Open Scope Q_scope.

Section C36.
Variables (m : method) (h w r : Z) (own : grid bool) (mask : option (grid Q)).
Hypothesis Hh : (0 < h)%Z.
Hypothesis Hw : (0 < w)%Z.
Hypothesis Hr : (0 < r)%Z.
Let ok := usable own mask.
Let safe data := edge_safe m h w r (fun i j => ~ (ok i j = true /\ data i j == 1)).

(** In sum mode the result at every point is the weighted total of the usable points of its window. *)
Theorem C36_sum data re_mask : exists out, calculate_neighbourhood m r true re_mask h w data own mask = Ok out /\
  forall y x, (0 <= y < h)%Z -> (0 <= x < w)%Z ->
    exists v, out y x = (Some v, (re_mask && negb (ok y x))%bool) /\ v == value_total m h w r ok data y x.
Proof. exact (calculate_sum m r h w data own mask Hh Hw Hr re_mask). Qed.

(** In mean mode it is the weighted mean of the usable points of the window, and missing when the window has none. *)
Theorem C36_mean_partial data re_mask : safe data ->
  exists out, calculate_neighbourhood m r false re_mask h w data own mask = Ok out /\
  forall y x, (0 <= y < h)%Z -> (0 <= x < w)%Z ->
    snd (out y x) = (re_mask && negb (ok y x))%bool /\
    (weight_total m h w r ok y x == 0 -> fst (out y x) = None) /\
    (~ weight_total m h w r ok y x == 0 -> exists v, fst (out y x) = Some v /\ v == value_total m h w r ok data y x / weight_total m h w r ok y x).
Proof. exact (calculate_mean m r h w data own mask Hh Hw Hr re_mask). Qed.

(** Missing exactly where no usable point contributes, for every field. *)
Theorem C36_missing_iff data re_mask out y x : calculate_neighbourhood m r false re_mask h w data own mask = Ok out ->
  (0 <= y < h)%Z -> (0 <= x < w)%Z -> (fst (out y x) = None <-> ~ exists i j, contributes m h w r ok y x i j).
Proof. exact (calculate_missing m r h w data own mask re_mask out y x Hh Hw Hr). Qed.

(** Never outside the range of the field's unmasked values, for every field. *)
Theorem C36_range data re_mask out lo hi y x v : calculate_neighbourhood m r false re_mask h w data own mask = Ok out ->
  (0 <= y < h)%Z -> (0 <= x < w)%Z -> fst (out y x) = Some v ->
  (forall i j, (0 <= i < h)%Z -> (0 <= j < w)%Z -> own i j = false -> lo <= data i j <= hi) -> lo <= v <= hi.
Proof. exact (calculate_range m r h w data own mask re_mask out lo hi y x v). Qed.

(** Within the range of the values that contribute to it. *)
Theorem C36_local_range_partial data re_mask out lo hi y x v : safe data -> calculate_neighbourhood m r false re_mask h w data own mask = Ok out ->
  (0 <= y < h)%Z -> (0 <= x < w)%Z -> fst (out y x) = Some v ->
  (forall i j, contributes m h w r ok y x i j -> lo <= data i j <= hi) -> lo <= v <= hi.
Proof.
  intros S H Hy Hx Hv Hb. destruct (C36_mean_partial data re_mask S) as [out' [E P]]. rewrite H in E. apply Ok_inj in E. subst out'.
  destruct (P y x Hy Hx) as [_ [P0 P1]]. destruct (Qeq_dec (weight_total m h w r ok y x) 0) as [Z|N]; [rewrite (P0 Z) in Hv; discriminate|].
  destruct (P1 N) as [u [Eu Hu]]. rewrite Hv in Eu. injection Eu as <-. rewrite Hu. apply mean_range; trivial.
  assert (A := weight_total_nonneg m h w r ok y x). unfold ok in *. lra.
Qed.

(** Data at unusable points have no influence. *)
Theorem C36_masked_irrelevant_partial data data' re_mask : safe data ->
  (forall i j, (0 <= i < h)%Z -> (0 <= j < w)%Z -> ok i j = true -> data i j == data' i j) ->
  safe data' -> exists out out', calculate_neighbourhood m r false re_mask h w data own mask = Ok out /\
    calculate_neighbourhood m r false re_mask h w data' own mask = Ok out' /\
    forall y x, (0 <= y < h)%Z -> (0 <= x < w)%Z -> snd (out y x) = snd (out' y x) /\
      match fst (out y x), fst (out' y x) with Some a, Some b => a == b | None, None => True | _, _ => False end.
Proof.
  intros S E S'. destruct (C36_mean_partial data re_mask S) as [out [H P]]. destruct (C36_mean_partial data' re_mask S') as [out' [H' P']].
  exists out, out'. split; [exact H|]. split; [exact H'|]. intros y x Hy Hx. destruct (P y x Hy Hx) as [A [B C]]. destruct (P' y x Hy Hx) as [A' [B' C']].
  split; [rewrite A, A'; reflexivity|]. destruct (Qeq_dec (weight_total m h w r ok y x) 0) as [Z|N]; [rewrite (B Z), (B' Z); exact I|].
  destruct (C N) as [u [-> Hu]]. destruct (C' N) as [v [-> Hv]]. rewrite Hu, Hv.
  assert (T : value_total m h w r ok data y x == value_total m h w r ok data' y x).
  { apply Qle_antisym; apply value_total_le; trivial; intros i j Hi Hj O; rewrite E by trivial; apply Qle_refl. }
  rewrite T. reflexivity.
Qed.

(** Order is kept: fields ordered point by point, such as exceedance probabilities of two thresholds, stay ordered. *)
Theorem C36_order_kept_partial data data' re_mask out out' y x v v' : safe data -> safe data' ->
  (forall i j, (0 <= i < h)%Z -> (0 <= j < w)%Z -> ok i j = true -> data i j <= data' i j) ->
  calculate_neighbourhood m r false re_mask h w data own mask = Ok out -> calculate_neighbourhood m r false re_mask h w data' own mask = Ok out' ->
  (0 <= y < h)%Z -> (0 <= x < w)%Z -> fst (out y x) = Some v -> fst (out' y x) = Some v' -> v <= v'.
Proof.
  intros S S' HL H H' Hy Hx Hv Hv'. destruct (C36_mean_partial data re_mask S) as [o [E P]]. rewrite H in E. apply Ok_inj in E. subst o.
  destruct (C36_mean_partial data' re_mask S') as [o [E P']]. rewrite H' in E. apply Ok_inj in E. subst o.
  destruct (P y x Hy Hx) as [_ [B C]]. destruct (P' y x Hy Hx) as [_ [B' C']].
  destruct (Qeq_dec (weight_total m h w r ok y x) 0) as [Z|N]; [rewrite (B Z) in Hv; discriminate|].
  destruct (C N) as [u [Eu Hu]]. rewrite Hv in Eu. injection Eu as <-. destruct (C' N) as [u' [Eu' Hu']]. rewrite Hv' in Eu'. injection Eu' as <-.
  rewrite Hu, Hu'. unfold Qdiv. apply Qmult_le_compat_r; [apply value_total_le; trivial|]. apply Qinv_le_0_compat. apply weight_total_nonneg.
Qed.
End C36.
(** The box sums themselves: refused for an even size, otherwise the total over the box of that size around every point, with the constant outside the domain. *)
Theorem C36_boxsum h w size c g : (0 < size)%Z ->
  (Z.even size = true -> boxsum h w size c g = Err ValueError) /\
  (Z.odd size = true -> exists s, boxsum h w size c g = Ok s /\ forall y x, (0 <= y)%Z -> (0 <= x)%Z -> s y x == square_total c h w ((size - 1) / 2) g y x).
Proof.
  intro P. split; intro H; [unfold boxsum; rewrite H; reflexivity|]. apply Z.odd_spec in H. destruct H as (r & ->). replace ((2 * r + 1 - 1) / 2)%Z with r by (apply (Z.div_unique _ 2 r 0); lia).
  apply boxsum_spec. lia.
Qed.

(** In the circular method nothing has to be assumed. *)
Theorem C36_circular_mean b h w r data own mask re_mask : (0 < h)%Z -> (0 < w)%Z -> (0 < r)%Z ->
  exists out, calculate_neighbourhood (Circular b) r false re_mask h w data own mask = Ok out /\
  forall y x, (0 <= y < h)%Z -> (0 <= x < w)%Z ->
    snd (out y x) = (re_mask && negb (usable own mask y x))%bool /\
    (weight_total (Circular b) h w r (usable own mask) y x == 0 -> fst (out y x) = None) /\
    (~ weight_total (Circular b) h w r (usable own mask) y x == 0 ->
     exists v, fst (out y x) = Some v /\ v == value_total (Circular b) h w r (usable own mask) data y x / weight_total (Circular b) h w r (usable own mask) y x).
Proof. intros Hh Hw Hr. exact (calculate_mean (Circular b) r h w data own mask Hh Hw Hr re_mask I). Qed.

(** A field whose usable values are nowhere exactly one is always safe when it reaches all four edges; so is a field with no ones. *)
Theorem C36_no_ones_safe h w r (own : grid bool) mask (data : grid Q) : (0 < h)%Z -> (0 < w)%Z -> (0 < r)%Z ->
  (forall i j, (0 <= i < h)%Z -> (0 <= j < w)%Z -> ~ data i j == 1) ->
  edge_safe Square h w r (fun i j => ~ (usable own mask i j = true /\ data i j == 1)).
Proof.
  intros Hh Hw Hr H. right. unfold spans_domain. cbv zeta. repeat split.
  - exists 0%Z, 0%Z. repeat split; try lia. intros [_ A]. apply (H 0%Z 0%Z); trivial; lia.
  - exists (h - 1)%Z, 0%Z. repeat split; try lia. intros [_ A]. apply (H (h - 1)%Z 0%Z); trivial; lia.
  - exists 0%Z, 0%Z. repeat split; try lia. intros [_ A]. apply (H 0%Z 0%Z); trivial; lia.
  - exists 0%Z, (w - 1)%Z. repeat split; try lia. intros [_ A]. apply (H 0%Z (w - 1)%Z); trivial; lia.
Qed.

(** Not for every field: a 5 by 5 field of ones but for a zero at a corner. The mean of the four points around the corner is 3/4; the
    result there is 1, because positions outside the domain are counted as ones. *)
Definition corner : grid Q := fun i j => if (Z.eqb i 0 && Z.eqb j 0)%bool then 0 else 1.
Definition unmasked : grid bool := fun _ _ => false.
Theorem C36_square_edge_refuted : exists out v, calculate_neighbourhood Square 1 false false 5 5 corner unmasked None = Ok out /\
  fst (out 0%Z 0%Z) = Some v /\ v == 1 /\
  value_total Square 5 5 1 (usable unmasked None) corner 0%Z 0%Z / weight_total Square 5 5 1 (usable unmasked None) 0%Z 0%Z == 3 # 4.
Proof.
  assert (A : exists v, match calculate_neighbourhood Square 1 false false 5 5 corner unmasked None with Ok out => fst (out 0%Z 0%Z) | Err _ => None end = Some v /\ v == 1)
    by (eexists; split; vm_compute; reflexivity).
  destruct (calculate_neighbourhood Square 1 false false 5 5 corner unmasked None) as [out|e]; destruct A as [v [A B]]; [|discriminate].
  exists out, v. split; [reflexivity|]. split; [exact A|]. split; [exact B|]. vm_compute. reflexivity.
Qed.

(** Cases: a field that is safe, with ones, masked points and a missing result; a window of every kind of point. *)
Definition field : grid Q := fun i j => if (Z.eqb i 0 && Z.eqb j 0)%bool then 0 else if (Z.eqb i 3 && Z.eqb j 3)%bool then 1 # 2 else 1.
Definition land : grid Q := fun i _ => if Z.ltb i 2 then 1 else 0.
Example C36_case_safe : edge_safe Square 4 4 1 (fun i j => ~ (usable unmasked (Some land) i j = true /\ field i j == 1)).
Proof.
  right. unfold spans_domain. cbv zeta. repeat split.
  - exists 0%Z, 0%Z. repeat split; try lia. intros [_ A]. vm_compute in A. discriminate.
  - exists 3%Z, 3%Z. repeat split; try lia. intros [A _]. vm_compute in A. discriminate.
  - exists 0%Z, 0%Z. repeat split; try lia. intros [_ A]. vm_compute in A. discriminate.
  - exists 3%Z, 3%Z. repeat split; try lia. intros [A _]. vm_compute in A. discriminate.
Qed.
Example C36_case : exists out, calculate_neighbourhood Square 1 false true 4 4 field unmasked (Some land) = Ok out /\
  (exists v, out 0%Z 0%Z = (Some v, false) /\ v == 3 # 4) /\ (exists v, out 2%Z 2%Z = (Some v, true) /\ v == 1) /\ out 3%Z 0%Z = (None, true).
Proof.
  assert (A : match calculate_neighbourhood Square 1 false true 4 4 field unmasked (Some land) with
    | Ok out => (exists v, out 0%Z 0%Z = (Some v, false) /\ v == 3 # 4) /\ (exists v, out 2%Z 2%Z = (Some v, true) /\ v == 1) /\ out 3%Z 0%Z = (None, true)
    | Err _ => False end).
  { remember (calculate_neighbourhood Square 1 false true 4 4 field unmasked (Some land)) as c eqn:E.
    assert (P0 : exists v, match c with Ok out => out 0%Z 0%Z | Err _ => (None, true) end = (Some v, false) /\ v == 3 # 4) by (rewrite E; eexists; split; vm_compute; reflexivity).
    assert (P1 : exists v, match c with Ok out => out 2%Z 2%Z | Err _ => (None, true) end = (Some v, true) /\ v == 1) by (rewrite E; eexists; split; vm_compute; reflexivity).
    assert (P2 : match c with Ok out => out 3%Z 0%Z | Err _ => (None, true) end = (None, true)) by (rewrite E; vm_compute; reflexivity).
    clear E. destruct c as [out|e]; [auto|]. destruct P0 as [v [P0 _]]. discriminate. }
  destruct (calculate_neighbourhood Square 1 false true 4 4 field unmasked (Some land)) as [out|e]; [exists out; split; [reflexivity|exact A]|destruct A].
Qed.
(** A safe field on which the fast path for ones is taken: its only other point is in the middle of a large domain. *)
Definition middle : grid Q := fun i j => if (Z.eqb i 4 && Z.eqb j 4)%bool then 0 else 1.
Example C36_case_fast : clear_of_edge 9 9 1 (fun i j => ~ (usable unmasked None i j = true /\ middle i j == 1)).
Proof.
  intros i j Hi Hj H. unfold middle, usable, unmasked in H. cbn [negb andb] in H. destruct (Z.eqb_spec i 4) as [->|Ni]; destruct (Z.eqb_spec j 4) as [->|Nj]; [lia| | |];
    exfalso; apply H; split; cbn; reflexivity.
Qed.

Print Assumptions C36_sum.
Print Assumptions C36_mean_partial.
Print Assumptions C36_missing_iff.
Print Assumptions C36_range.
Print Assumptions C36_local_range_partial.
Print Assumptions C36_masked_irrelevant_partial.
Print Assumptions C36_order_kept_partial.
Print Assumptions C36_boxsum.
Print Assumptions C36_circular_mean.
Print Assumptions C36_no_ones_safe.
Print Assumptions C36_square_edge_refuted.
