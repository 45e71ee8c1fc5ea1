(** C37: the maximum within a vicinity. *)
From Verif Require Import Base Model_Nbhood Proofs_Nbhood Model_Vicinity Spec_Vicinity Proofs_Vicinity.
Local Open Scope Q_scope.

Section C37.
Variables (fill : Q) (h w : Z) (data : grid Q) (own : grid bool) (land : option (grid bool)).
(** No unmasked value is as low as the fill value. *)
Hypothesis Hfill : forall i j, (0 <= i < h)%Z -> (0 <= j < w)%Z -> own i j = false -> - fill < data i j.
Let vicinity r := maximum_within_vicinity fill h w r data own land.

(** At an unmasked point the result is the largest of the unmasked values within the square around it that are on the same side of the
    land mask; masked points keep their value and their mask. *)
Theorem C37_value r y x : (0 <= y < h)%Z -> (0 <= x < w)%Z -> (0 <= r)%Z -> own y x = false ->
  is_maximum (counts h w r own land y x) data (fst (vicinity r y x)) /\ snd (vicinity r y x) = false.
Proof. intros Hy Hx Hr Ho. split; [exact (vicinity_spec fill h w r data own land y x Hy Hx Hr Hfill Ho)|exact Ho]. Qed.
Theorem C37_masked_points_untouched r y x : own y x = true -> vicinity r y x = (data y x, true).
Proof. intro Ho. unfold vicinity, maximum_within_vicinity. cbv zeta. rewrite Ho. reflexivity. Qed.

(** A wider vicinity never gives less; the narrowest gives the input. *)
Theorem C37_radius_monotone r r' y x : (0 <= y < h)%Z -> (0 <= x < w)%Z -> (0 <= r <= r')%Z ->
  fst (vicinity r y x) <= fst (vicinity r' y x).
Proof.
  intros Hy Hx Hr. destruct (own y x) eqn:Ho; [rewrite !C37_masked_points_untouched by exact Ho; apply Qle_refl|].
  destruct (C37_value r y x Hy Hx ltac:(lia) Ho) as [[[i [j [C E]]] _] _]. destruct (C37_value r' y x Hy Hx ltac:(lia) Ho) as [[_ B] _].
  rewrite E. apply B. unfold counts in *. intuition lia.
Qed.
Theorem C37_zero_radius y x : (0 <= y < h)%Z -> (0 <= x < w)%Z -> fst (vicinity 0 y x) == data y x.
Proof.
  intros Hy Hx. destruct (own y x) eqn:Ho; [rewrite C37_masked_points_untouched by exact Ho; reflexivity|].
  destruct (C37_value 0 y x Hy Hx ltac:(lia) Ho) as [[[i [j [C E]]] _] _]. unfold counts in C. assert (i = y) by lia. assert (j = x) by lia. subst. exact E.
Qed.
(** An event (1 against 0) is reported exactly when it occurs at a counting point of the vicinity. *)
Theorem C37_occurrence r y x : (0 <= y < h)%Z -> (0 <= x < w)%Z -> (0 <= r)%Z -> own y x = false ->
  (forall i j, (0 <= i < h)%Z -> (0 <= j < w)%Z -> own i j = false -> data i j == 0 \/ data i j == 1) ->
  (fst (vicinity r y x) == 1 <-> exists i j, counts h w r own land y x i j /\ data i j == 1) /\
  (fst (vicinity r y x) == 0 <-> forall i j, counts h w r own land y x i j -> data i j == 0).
Proof.
  intros Hy Hx Hr Ho Hb. destruct (C37_value r y x Hy Hx Hr Ho) as [[[i [j [C E]]] B] _]. assert (D : forall a b, counts h w r own land y x a b -> data a b == 0 \/ data a b == 1).
  { intros a b Cab. unfold counts in Cab. apply Hb; tauto. }
  split; split.
  - intro V. exists i, j. split; [exact C|]. rewrite <- E. exact V.
  - intros [a [b [Cab V]]]. assert (A := B a b Cab). destruct (D i j C); lra.
  - intros V a b Cab. assert (A := B a b Cab). destruct (D a b Cab); lra.
  - intro V. rewrite E. apply V. exact C.
Qed.
End C37.

(** Order is kept, so exceedance probabilities of ordered thresholds stay ordered. *)
Theorem C37_order_kept fill h w r data data' own land y x : (0 <= y < h)%Z -> (0 <= x < w)%Z -> (0 <= r)%Z ->
  (forall i j, (0 <= i < h)%Z -> (0 <= j < w)%Z -> own i j = false -> - fill < data i j) ->
  (forall i j, (0 <= i < h)%Z -> (0 <= j < w)%Z -> data i j <= data' i j) ->
  fst (maximum_within_vicinity fill h w r data own land y x) <= fst (maximum_within_vicinity fill h w r data' own land y x).
Proof.
  intros Hy Hx Hr Hf Hle. destruct (own y x) eqn:Ho.
  - rewrite !C37_masked_points_untouched by exact Ho. apply Hle; trivial.
  - assert (Hf' : forall i j, (0 <= i < h)%Z -> (0 <= j < w)%Z -> own i j = false -> - fill < data' i j).
    { intros i j Hi Hj O. assert (A := Hf i j Hi Hj O). assert (B := Hle i j Hi Hj). lra. }
    destruct (C37_value fill h w data own land Hf r y x Hy Hx Hr Ho) as [[[i [j [C E]]] _] _].
    destruct (C37_value fill h w data' own land Hf' r y x Hy Hx Hr Ho) as [[_ B] _]. rewrite E.
    eapply Qle_trans; [|apply B; exact C]. unfold counts in C. apply Hle; tauto.
Qed.
(** Vicinities add up: on unmasked data the vicinity of radius s of a vicinity of radius r is the vicinity of radius r + s. *)
Theorem C37_vicinity_of_vicinity fill h w r s data y x : (0 <= y < h)%Z -> (0 <= x < w)%Z -> (0 <= r)%Z -> (0 <= s)%Z ->
  (forall i j, (0 <= i < h)%Z -> (0 <= j < w)%Z -> - fill < data i j) ->
  let none : grid bool := fun _ _ => false in
  fst (maximum_within_vicinity fill h w s (fun i j => fst (maximum_within_vicinity fill h w r data none None i j)) none None y x)
  == fst (maximum_within_vicinity fill h w (r + s) data none None y x).
Proof.
  intros Hy Hx Hr Hs Hf none. set (v := fun i j => fst (maximum_within_vicinity fill h w r data none None i j)).
  assert (Hf0 : forall i j, (0 <= i < h)%Z -> (0 <= j < w)%Z -> none i j = false -> - fill < data i j) by (intros i j Hi Hj _; apply Hf; trivial).
  assert (V : forall i j, (0 <= i < h)%Z -> (0 <= j < w)%Z -> is_maximum (counts h w r none None i j) data (v i j)).
  { intros i j Hi Hj. exact (proj1 (C37_value fill h w data none None Hf0 r i j Hi Hj Hr eq_refl)). }
  assert (Hfv : forall i j, (0 <= i < h)%Z -> (0 <= j < w)%Z -> none i j = false -> - fill < v i j).
  { intros i j Hi Hj _. destruct (V i j Hi Hj) as [[a [b [C E]]] _]. rewrite E. unfold counts in C. apply Hf; tauto. }
  destruct (C37_value fill h w v none None Hfv s y x Hy Hx Hs eq_refl) as [[[i [j [C E]]] B] _].
  assert (Cij := C). unfold counts in Cij. destruct Cij as [Hi [Hj [Wi [Wj _]]]].
  apply (max_unique (counts h w (r + s) none None y x) data); [|exact (proj1 (C37_value fill h w data none None Hf0 (r + s) y x Hy Hx ltac:(lia) eq_refl))].
  split.
  - destruct (V i j Hi Hj) as [[a [b [Cab Eab]]] _]. exists a, b. unfold counts in *. split; [intuition lia|]. rewrite E. exact Eab.
  - intros a b Cab. unfold counts in Cab. destruct Cab as [Ha [Hb [Wa [Wb _]]]].
    (* the point of the window of radius s nearest to (a, b) *)
    set (i' := Z.max (y - s) (Z.min (y + s) a)). set (j' := Z.max (x - s) (Z.min (x + s) b)).
    assert (Hi' : (0 <= i' < h)%Z) by lia. assert (Hj' : (0 <= j' < w)%Z) by lia.
    eapply Qle_trans; [apply (proj2 (V i' j' Hi' Hj') a b)|apply (B i' j')]; unfold counts, none; repeat split; lia.
Qed.

(** A case with a mask and a land mask. *)
Definition c37_data : grid Q := fun i j => inject_Z (10 * i + j).
Definition c37_own : grid bool := fun i j => (Z.eqb i 3 && Z.eqb j 3)%bool.
Definition c37_land : grid bool := fun _ j => Z.ltb j 2.
Example C37_case : (forall i j, (0 <= i < 4)%Z -> (0 <= j < 4)%Z -> c37_own i j = false -> - (1000) < c37_data i j) /\
  fst (maximum_within_vicinity 1000 4 4 1 c37_data c37_own (Some c37_land) 2%Z 2%Z) = 32 /\
  fst (maximum_within_vicinity 1000 4 4 1 c37_data c37_own (Some c37_land) 0%Z 1%Z) = 11 /\
  maximum_within_vicinity 1000 4 4 1 c37_data c37_own (Some c37_land) 3%Z 3%Z = (33, true).
Proof.
  split; [|split; [|split]; vm_compute; reflexivity]. intros i j Hi Hj _. unfold c37_data. change (- (1000)) with (inject_Z (-1000)). rewrite <- Zlt_Qlt. lia.
Qed.

Print Assumptions C37_value.
Print Assumptions C37_masked_points_untouched.
Print Assumptions C37_radius_monotone.
Print Assumptions C37_zero_radius.
Print Assumptions C37_occurrence.
Print Assumptions C37_order_kept.
Print Assumptions C37_vicinity_of_vicinity.
