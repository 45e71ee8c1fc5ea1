(** C47. *)
From Verif Require Import Base Model_Table Spec_Table Proofs_Table.
Local Open Scope Q_scope.

(** Every value of the result is the table's entry in the row read from the cube called [row_name] and the column read from the other cube: the greatest label not above the value
    (within 0.00001), or the smallest label when the value is below all of them; NaN where either value is NaN. *)
Theorem C47_value row_name t cubes shape out : well_formed t -> table_process row_name t cubes = Ok (shape, out) ->
  exists row col, (cubes = [row; col] \/ cubes = [col; row]) /\ t_name row = row_name /\ t_name col <> row_name /\ t_shape row = t_shape col /\ shape = t_shape row /\
  Forall2 (fun rc o => match rc with (Some r, Some c) => table_value t r c o | _ => o = None end) (combine (t_data row) (t_data col)) out.
Proof.
  intros W H. unfold table_process in H. destruct cubes as [|a [|b [|]]]; try discriminate.
  destruct (String.eqb_spec (t_name a) row_name) as [Ea|Ea], (String.eqb_spec (t_name b) row_name) as [Eb|Eb]; cbn [bind] in H; try discriminate;
    [set (row := a) in *; set (col := b) in * | set (row := b) in *; set (col := a) in *].
  all: destruct (list_eq_dec Nat.eq_dec (t_shape col) (t_shape row)) as [E|]; [|discriminate];
    destruct (mapM _ _) as [o|] eqn:M; [|discriminate]; cbn [bind] in H; injection H as <- <-; exists row, col;
    (split; [auto|]); (split; [assumption|]); (split; [assumption|]); (split; [auto|]); (split; [reflexivity|]);
    apply mapM_forall2 in M; revert M; generalize (combine (t_data row) (t_data col)) o; clear - W; intros l m M;
    (induction M as [|[r c] y l m A M IH]; constructor; [|exact IH]); cbn [fst snd] in A;
    (destruct r as [r|]; [|apply (extract_point_nan t None c y A); auto]); (destruct c as [c|]; [|apply (extract_point_nan t (Some r) None y A); auto]);
    apply extract_point_value; assumption.
Qed.
(** When there is a result: exactly two cubes of one shape, one of them with the row name, and a table that is not empty. *)
Theorem C47_accepted row_name t a b : (exists r c x, holds t r c x) ->
  ((exists o, table_process row_name t [a; b] = Ok o) <-> t_shape a = t_shape b /\ ((t_name a = row_name /\ t_name b <> row_name) \/ (t_name b = row_name /\ t_name a <> row_name))).
Proof.
  intros (r0 & c0 & x0 & H0). unfold table_process.
  assert (T : forall l, exists m, mapM (fun p => extract_point t (fst p) (snd p)) l = Ok m) by (intro l; apply mapM_total; intros; apply extract_point_total; eauto).
  destruct (String.eqb_spec (t_name a) row_name) as [Ea|Ea], (String.eqb_spec (t_name b) row_name) as [Eb|Eb]; cbn [bind].
  - split; [intros (o & H); discriminate|]. intros [_ [[_ H]|[_ H]]]; contradiction.
  - destruct (list_eq_dec Nat.eq_dec (t_shape b) (t_shape a)) as [E|E].
    + destruct (T (combine (t_data a) (t_data b))) as (m & ->). cbn [bind]. split; [intros _; auto|eauto].
    + split; [intros (o & H); discriminate|]. intros [H _]. congruence.
  - destruct (list_eq_dec Nat.eq_dec (t_shape a) (t_shape b)) as [E|E].
    + destruct (T (combine (t_data b) (t_data a))) as (m & ->). cbn [bind]. split; [intros _; auto|eauto].
    + split; [intros (o & H); discriminate|]. intros [H _]. congruence.
  - split; [intros (o & H); discriminate|]. intros [_ [[H _]|[H _]]]; contradiction.
Qed.
Theorem C47_two_cubes row_name t cubes : length cubes <> 2%nat -> table_process row_name t cubes = Err ValueError.
Proof. intro H. destruct cubes as [|a [|b [|]]]; try reflexivity. destruct (H eq_refl). Qed.
(** The value read does not depend on the order in which the table is written. *)
Theorem C47_order_free t t' rv cv o o' : well_formed t -> Permutation t t' -> extract_point t (Some rv) (Some cv) = Ok o -> extract_point t' (Some rv) (Some cv) = Ok o' -> o = o'.
Proof.
  intros W P H H'. apply (table_value_unique t rv cv); [exact W|exact (extract_point_value t rv cv o W H)|].
  apply (table_value_perm t'); [apply Permutation_sym; exact P|]. exact (extract_point_value t' rv cv o' (well_formed_perm t t' P W) H').
Qed.
(** A value within the tolerance of a label is read at that label, if the labels are at least twice the tolerance apart. *)
Theorem C47_near_label (P : Q -> Prop) v l m : (forall a b, P a -> P b -> a < b -> a + (2 # 100000) <= b) -> P l -> Qabs (v - l) < 1 # 100000 -> label_for P v m -> m == l.
Proof.
  intros S Pl N [Pm [[A B]|A]]; apply Qabs_Qlt_condition in N.
  - specialize (B l Pl ltac:(lra)). destruct (Qlt_le_dec l m) as [C|C]; [|lra]. specialize (S l m Pl Pm C). lra.
  - specialize (A l Pl). lra.
Qed.
(** A table whose entries do not decrease with the row label gives a result that does not decrease with the row value. *)
Theorem C47_monotone t rv rv' cv x x' : well_formed t -> (forall r r' c y y', holds t r c y -> holds t r' c y' -> r <= r' -> y <= y') -> rv <= rv' ->
  extract_point t (Some rv) (Some cv) = Ok (Some x) -> extract_point t (Some rv') (Some cv) = Ok (Some x') -> x <= x'.
Proof.
  intros W M L H H'. apply (extract_point_value t rv cv _ W) in H. apply (extract_point_value t rv' cv _ W) in H'.
  destruct H as (r & c & Lr & Lc & H), H' as (r' & c' & Lr' & Lc' & H').
  assert (c = c') as <- by (apply (distinct_in (map fst t)); [apply W|apply Lc|apply Lc'|exact (label_for_unique _ _ _ _ Lc Lc')]).
  apply (M r r' c x x' H H'). exact (label_for_mono _ _ _ _ _ L Lr Lr').
Qed.
Example C47_case : well_formed [(10, [(1, 5); (0, 3)]); (0, [(0, 2); (1, 4)])] /\
  table_process "r" [(10, [(1, 5); (0, 3)]); (0, [(0, 2); (1, 4)])]
    [{| t_name := "c"; t_shape := [5]%nat; t_data := [Some 5; Some (-1); Some (9999999 # 1000000); None; Some 20] |};
     {| t_name := "r"; t_shape := [5]%nat; t_data := [Some (1 # 2); Some 3; Some (1 # 2); Some 1; Some (99999 # 100000)] |}] = Ok ([5]%nat, [Some 2; Some 4; Some 3; None; Some 3]).
Proof. split; [|vm_compute; reflexivity]. split; repeat constructor; intro H; vm_compute in H; discriminate. Qed.

Print Assumptions C47_value.
Print Assumptions C47_accepted.
Print Assumptions C47_two_cubes.
Print Assumptions C47_order_free.
Print Assumptions C47_near_label.
Print Assumptions C47_monotone.
