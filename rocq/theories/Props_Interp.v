(** C10, C11: the interpolation back ends of improver/ensemble_copula_coupling. *)
From Verif Require Import Base Interp Proofs_Interp.

(** * C10: numba and pure numpy agree, except on a target equal to a repeated knot. *)
Theorem C10_same_x_agree_partial x xp fp a b : coarse xp -> Forall (not_repeated xp) x ->
  fast_interp_same_x x xp fp = Ok a -> slow_interp_same_x x xp fp = Ok b -> rows_eq a b.
Proof. exact (same_x_agree x xp fp a b). Qed.
Theorem C10_same_y_agree_partial x xp fp a b : Forall (fun row => coarse row /\ Forall (not_repeated row) x) xp ->
  fast_interp_same_y x xp fp = Ok a -> slow_interp_same_y x xp fp = Ok b -> rows_eq a b.
Proof. exact (same_y_agree x xp fp a b). Qed.
(** Both accept exactly the same shapes. *)
Theorem C10_same_x_shapes x xp fp : Forall (fun r => length r = length xp) fp <->
  (exists a, fast_interp_same_x x xp fp = Ok a) /\ (exists b, slow_interp_same_x x xp fp = Ok b).
Proof. exact (same_x_total x xp fp). Qed.
(** Knots 1e-15 apart satisfy the hypotheses for every target. *)
Theorem C10_spaced_ok xp : spaced xp -> coarse xp /\ forall x, not_repeated xp x.
Proof. exact (fun H => conj (spaced_coarse xp H) (fun x => spaced_not_repeated xp x H)). Qed.
(** The unrestricted claim fails on repeated knots (both entry points). *)
Theorem C10_same_x_refuted :
  exists a b, fast_interp_same_x [0] [0; 0; 1] [[10; 20; 30]] = Ok a /\
    slow_interp_same_x [0] [0; 0; 1] [[10; 20; 30]] = Ok b /\ ~ rows_eq a b.
Proof. exact tie_witness. Qed.
Theorem C10_same_y_refuted :
  exists a b, fast_interp_same_y [0] [[0; 0; 1]] [10; 20; 30] = Ok a /\
    slow_interp_same_y [0] [[0; 0; 1]] [10; 20; 30] = Ok b /\ ~ rows_eq a b.
Proof. exact tie_witness_y. Qed.

Example C10_case : coarse [0; 0; 1; 3] /\ Forall (not_repeated [0; 0; 1; 3]) [1#2; 1; 5] /\
  exists a, fast_interp_same_x [1#2; 1; 5] [0; 0; 1; 3] [[7; 1; 2; 4]] = Ok a /\ rows_eq a [[3#2; 2; 4]].
Proof.
  assert (HC : coarse [0; 0; 1; 3]).
  { unfold coarse. repeat (apply SSorted_cons || apply SSorted_nil); repeat (apply Forall_cons || apply Forall_nil);
      first [left; reflexivity | right; unfold Qle, eps15; simpl; lia]. }
  split; [exact HC|]. split.
  - assert (H : forall x, ~ x == 0 -> not_repeated [0; 0; 1; 3] x).
    { intros x Hx i j [H1 H2] E E'. simpl in H2.
      destruct i as [|[|[|[|i]]]], j as [|[|[|[|j]]]]; simpl in *; try lia; lra. }
    repeat constructor; apply H; lra.
  - eexists. split; [reflexivity|]. repeat constructor.
Qed.

(** * C11: the running-index scan equals interpolating every target on its own. *)
Theorem C11_scan_equals_single_target x xp fp a i j :
  fast_interp_same_y x xp fp = Ok a -> (i < length xp)%nat -> (j < length x)%nat ->
  exists v, fast_interp_same_y [nth j x 0] [nth i xp []] fp = Ok [[v]] /\ nth j (nth i a []) 0 = v.
Proof. exact (nth_single_interp x xp fp a i j). Qed.
(** Ordered and unordered target lists agree target by target. *)
Theorem C11_target_order_irrelevant x x' xp fp a a' : Permutation x x' ->
  fast_interp_same_y x xp fp = Ok a -> fast_interp_same_y x' xp fp = Ok a' ->
  Forall2 (fun r r' => Permutation (combine x r) (combine x' r')) a a'.
Proof. exact (perm_interp x x' xp fp a a'). Qed.
(** And both fast routines compute the same function of one row. *)
Theorem C11_same_y_equals_same_x x xp fp a : fast_interp_same_y x xp fp = Ok a ->
  Forall2 (fun row r => exists b, fast_interp_same_x x row [fp] = Ok [b] /\ Forall2 Qeq r b) xp a.
Proof. exact (y_equals_x x xp fp a). Qed.

Example C11_case : exists a, fast_interp_same_y [-1; 1#2; 1; 3#2; 9] [[0; 1; 1; 2]] [10; 20; 30; 40] = Ok a /\
  rows_eq a [[10; 15; 20; 35; 40]].
Proof. eexists. split; [reflexivity|]. repeat constructor. Qed.

Print Assumptions C10_same_x_agree_partial. Print Assumptions C10_same_y_agree_partial.
Print Assumptions C10_same_x_shapes. Print Assumptions C10_spaced_ok.
Print Assumptions C10_same_x_refuted. Print Assumptions C10_same_y_refuted.
Print Assumptions C11_scan_equals_single_target. Print Assumptions C11_target_order_irrelevant.
Print Assumptions C11_same_y_equals_same_x.
