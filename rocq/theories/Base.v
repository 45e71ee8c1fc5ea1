(** Shared vocabulary: exceptions as values, boolean comparisons on Q, sums,
    sortedness, insertion sort. Nothing here models a particular IMPROVER
    function; each definition says which Python / numpy primitive it stands for. *)
From Coq Require Export String.
From Coq Require Export List Arith ZArith QArith Qminmax Qabs Bool Lia Lqa Permutation Sorted.
Export ListNotations.
Open Scope list_scope.
Open Scope Q_scope.

(** Python exception classes raised by the modelled functions. *)
Inductive err :=
| ValueError | TypeError | KeyError | IndexError | AttributeError | NotImplementedError
| CoordinateNotFoundError | InvalidCubeError | MergeError | RuntimeError | ZeroDivision
| StopIteration | ConstraintMismatchError | FileNotFound | OutOfFuel.

(** A Python call: returns a value or raises. *)
Inductive result (A : Type) := Ok (a : A) | Err (e : err).
Arguments Ok {A} a.
Arguments Err {A} e.

Definition bind {A B} (r : result A) (f : A -> result B) : result B :=
  match r with Ok a => f a | Err e => Err e end.
Notation "'let*' x ':=' r 'in' k" := (bind r (fun x => k))
  (at level 61, x pattern, r at next level, right associativity).

Fixpoint mapM {A B} (f : A -> result B) (l : list A) : result (list B) :=
  match l with
  | [] => Ok []
  | x :: r => let* y := f x in let* ys := mapM f r in Ok (y :: ys)
  end.

Definition is_ok {A} (r : result A) : bool := match r with Ok _ => true | Err _ => false end.

(** Boolean comparisons (Python's <, <=, == on numbers). *)
Definition Qltb (x y : Q) : bool := negb (Qle_bool y x).
Notation "x <=? y" := (Qle_bool x y) (at level 70, no associativity) : Q_scope.
Notation "x <? y" := (Qltb x y) (at level 70, no associativity) : Q_scope.
Notation "x =? y" := (Qeq_bool x y) (at level 70, no associativity) : Q_scope.

Lemma Qleb_spec x y : BoolSpec (x <= y) (y < x) (x <=? y).
Proof.
  destruct (Qle_bool x y) eqn:E; constructor.
  - apply Qle_bool_iff; exact E.
  - apply Qnot_le_lt. intro H. apply Qle_bool_iff in H. congruence.
Qed.
Lemma Qltb_spec x y : BoolSpec (x < y) (y <= x) (x <? y).
Proof.
  unfold Qltb. destruct (Qleb_spec y x) as [H|H]; constructor; exact H.
Qed.
Lemma Qeqb_spec x y : BoolSpec (x == y) (~ x == y) (x =? y).
Proof.
  destruct (Qeq_bool x y) eqn:E; constructor.
  - apply Qeq_bool_iff; exact E.
  - intro H. apply Qeq_bool_iff in H. congruence.
Qed.

(** Destruct the comparison booleans occurring in the goal. *)
Ltac qb :=
  match goal with
  | |- context [Qle_bool ?a ?b] => destruct (Qleb_spec a b)
  | |- context [Qltb ?a ?b] => destruct (Qltb_spec a b)
  | |- context [Qeq_bool ?a ?b] => destruct (Qeqb_spec a b)
  end.
Ltac qbs := repeat (qb; cbn [negb andb orb]).
Ltac qbh H :=
  match type of H with
  | context [Qle_bool ?a ?b] => destruct (Qleb_spec a b)
  | context [Qltb ?a ?b] => destruct (Qltb_spec a b)
  | context [Qeq_bool ?a ?b] => destruct (Qeqb_spec a b)
  end.

Lemma Qltb_lt x y : (x <? y) = true <-> x < y.
Proof. destruct (Qltb_spec x y); split; intro; try easy; lra. Qed.
Lemma Qltb_ge x y : (x <? y) = false <-> y <= x.
Proof. destruct (Qltb_spec x y); split; intro; try easy; lra. Qed.
Lemma Qleb_le x y : (x <=? y) = true <-> x <= y.
Proof. apply Qle_bool_iff. Qed.
Lemma Qleb_gt x y : (x <=? y) = false <-> y < x.
Proof. destruct (Qleb_spec x y); split; intro; try easy; lra. Qed.
Lemma Qeqb_eq x y : (x =? y) = true <-> x == y.
Proof. apply Qeq_bool_iff. Qed.

Global Instance Qltb_comp : Proper (Qeq ==> Qeq ==> eq) Qltb.
Proof. intros a b H c d H0. unfold Qltb. destruct (Qleb_spec c a), (Qleb_spec d b); try easy; lra. Qed.

(** np.clip(x, lo, hi) for lo <= hi: min(max(x, lo), hi). *)
Definition clip (lo hi x : Q) : Q := Qmin (Qmax x lo) hi.

(** Python's min / max / np.minimum / np.maximum on two numbers: Qmin, Qmax. *)
Lemma Qmin_spec x y : (x <= y /\ Qmin x y = x) \/ (y <= x /\ Qmin x y == y).
Proof.
  destruct (Qlt_le_dec y x) as [H|H].
  - right; split; [lra|]. apply Q.min_r; lra.
  - left; split; [lra|]. unfold Qmin, GenericMinMax.gmin.
    destruct (Qcompare_spec x y); try reflexivity. lra.
Qed.
Lemma Qmin_cases x y : (x <= y /\ Qmin x y == x) \/ (y <= x /\ Qmin x y == y).
Proof. destruct (Qmin_spec x y) as [[H E]|[H E]]; [left|right]; split; trivial. rewrite E; reflexivity. Qed.
Lemma Qmax_cases x y : (x <= y /\ Qmax x y == y) \/ (y <= x /\ Qmax x y == x).
Proof.
  destruct (Qlt_le_dec y x) as [H|H].
  - right; split; [lra|]. apply Q.max_l; lra.
  - left; split; [lra|]. apply Q.max_r; lra.
Qed.
Ltac no_mm a :=
  lazymatch a with context [Qmin _ _] => fail | context [Qmax _ _] => fail | _ => idtac end.
Ltac qmm1 a b f lem :=
  no_mm a; no_mm b;
  let H := fresh in let E := fresh in
  destruct (lem a b) as [[H E]|[H E]];
  let m := fresh "m" in set (m := f a b) in *; clearbody m.
Ltac qmm :=
  repeat match goal with
  | |- context [Qmin ?a ?b] => qmm1 a b Qmin Qmin_cases
  | |- context [Qmax ?a ?b] => qmm1 a b Qmax Qmax_cases
  | _ : context [Qmin ?a ?b] |- _ => qmm1 a b Qmin Qmin_cases
  | _ : context [Qmax ?a ?b] |- _ => qmm1 a b Qmax Qmax_cases
  end.

Lemma clip_bounds lo hi x : lo <= hi -> lo <= clip lo hi x <= hi.
Proof. intro H. unfold clip. qmm; lra. Qed.
Lemma clip_id lo hi x : lo <= x <= hi -> clip lo hi x == x.
Proof. intro H. unfold clip. qmm; lra. Qed.
Lemma clip_mono lo hi x y : lo <= hi -> x <= y -> clip lo hi x <= clip lo hi y.
Proof. intros H H0. unfold clip. qmm; lra. Qed.
Global Instance clip_comp : Proper (Qeq ==> Qeq ==> Qeq ==> Qeq) clip.
Proof. intros a b H c d H0 e f H1. unfold clip. rewrite H, H0, H1. reflexivity. Qed.

(** np.sum of a vector. *)
Fixpoint qsum (l : list Q) : Q := match l with [] => 0 | x :: r => x + qsum r end.

Lemma qsum_app l m : qsum (l ++ m) == qsum l + qsum m.
Proof. induction l as [|x l IH]; simpl; [ring|]. rewrite IH. ring. Qed.
Lemma qsum_perm l m : Permutation l m -> qsum l == qsum m.
Proof. induction 1; simpl; try reflexivity; try lra. Qed.
Lemma qsum_nonneg l : Forall (fun x => 0 <= x) l -> 0 <= qsum l.
Proof. induction 1; simpl; lra. Qed.
Lemma qsum_map_mul k l : qsum (map (fun x => x * k) l) == qsum l * k.
Proof. induction l as [|x l IH]; simpl; [ring|]. rewrite IH; ring. Qed.
Lemma qsum_map_div k l : qsum (map (fun x => x / k) l) == qsum l / k.
Proof. unfold Qdiv. apply qsum_map_mul. Qed.
Lemma qsum_rev l : qsum (rev l) == qsum l.
Proof. apply qsum_perm, Permutation_sym, Permutation_rev. Qed.
Lemma qsum_map_ext {A} (f g : A -> Q) l : (forall x, In x l -> f x == g x) -> qsum (map f l) == qsum (map g l).
Proof.
  induction l as [|x l IH]; simpl; intro H; [reflexivity|].
  rewrite (H x), IH; [reflexivity| |]; auto.
Qed.
Lemma qsum_map_plus {A} (f g : A -> Q) l : qsum (map (fun x => f x + g x) l) == qsum (map f l) + qsum (map g l).
Proof. induction l as [|x l IH]; simpl; [ring|]. rewrite IH; ring. Qed.
Lemma qsum_map_le {A} (f g : A -> Q) l : (forall x, In x l -> f x <= g x) -> qsum (map f l) <= qsum (map g l).
Proof.
  induction l as [|x l IH]; simpl; intro H; [lra|].
  assert (f x <= g x) by auto. assert (qsum (map f l) <= qsum (map g l)) by auto. lra.
Qed.
Lemma qsum_zero_nonneg l : Forall (fun x => 0 <= x) l -> qsum l == 0 -> Forall (fun x => x == 0) l.
Proof.
  induction 1 as [|x l Hx Hl IH]; simpl; intro E; constructor.
  - pose proof (qsum_nonneg l Hl). lra.
  - apply IH. pose proof (qsum_nonneg l Hl). lra.
Qed.
Lemma qsum_ge_in l x : Forall (fun x => 0 <= x) l -> In x l -> x <= qsum l.
Proof.
  induction 1 as [|y l Hy Hl IH]; simpl; [easy|].
  intros [->|H]; [pose proof (qsum_nonneg l Hl)|specialize (IH H)]; lra.
Qed.

Definition Qlen {A} (l : list A) : Q := inject_Z (Z.of_nat (length l)).

Lemma Qlen_cons {A} (x : A) l : Qlen (x :: l) == Qlen l + 1.
Proof. unfold Qlen. simpl length. rewrite Nat2Z.inj_succ. unfold Z.succ. rewrite inject_Z_plus. reflexivity. Qed.
Lemma Qlen_nonneg {A} (l : list A) : 0 <= Qlen l.
Proof. unfold Qlen, Qle; simpl. lia. Qed.
Lemma Qlen_pos {A} (l : list A) : l <> [] -> 0 < Qlen l.
Proof. destruct l; [easy|]. intros _. rewrite Qlen_cons. pose proof (Qlen_nonneg l). lra. Qed.

(** Injection of naturals. *)
Definition Qn (n : nat) : Q := inject_Z (Z.of_nat n).
Lemma Qn_S n : Qn (S n) == Qn n + 1.
Proof. unfold Qn. rewrite Nat2Z.inj_succ. unfold Z.succ. rewrite inject_Z_plus. reflexivity. Qed.
Lemma Qn_nonneg n : 0 <= Qn n.
Proof. unfold Qn, Qle; simpl. lia. Qed.
Lemma Qn_le a b : (a <= b)%nat -> Qn a <= Qn b.
Proof. intro H. unfold Qn. rewrite <- Zle_Qle. lia. Qed.
Lemma Qn_lt a b : (a < b)%nat -> Qn a < Qn b.
Proof. intro H. unfold Qn. rewrite <- Zlt_Qlt. lia. Qed.
Lemma Qn_plus a b : Qn (a + b) == Qn a + Qn b.
Proof. unfold Qn. rewrite Nat2Z.inj_add, inject_Z_plus. reflexivity. Qed.
Lemma Qn_inj a b : Qn a == Qn b -> a = b.
Proof. unfold Qn. intro H. assert (Z.of_nat a = Z.of_nat b) by (unfold Qeq in H; simpl in H; lia). lia. Qed.

(** Sortedness. *)
Definition qsorted := StronglySorted Qle.
Definition qssorted := StronglySorted Qlt.

Lemma qssorted_qsorted l : qssorted l -> qsorted l.
Proof.
  induction 1 as [|x l Hs IH Hf]; constructor; trivial.
  eapply Forall_impl; [|exact Hf]. intros; lra.
Qed.
Lemma qsorted_nth l d i j : qsorted l -> (i <= j < length l)%nat -> nth i l d <= nth j l d.
Proof.
  intro H. revert i j. induction H as [|x l Hs IH Hf]; intros i j Hij; [simpl in Hij; lia|].
  destruct i as [|i], j as [|j]; simpl; try lra; simpl in Hij; try lia.
  - rewrite Forall_forall in Hf. apply Hf. apply nth_In. lia.
  - apply IH. lia.
Qed.
Lemma qssorted_nth l d i j : qssorted l -> (i < j < length l)%nat -> nth i l d < nth j l d.
Proof.
  intro H. revert i j. induction H as [|x l Hs IH Hf]; intros i j Hij; [simpl in Hij; lia|].
  destruct i as [|i], j as [|j]; simpl; try lra; simpl in Hij; try lia.
  - rewrite Forall_forall in Hf. apply Hf. apply nth_In. lia.
  - apply IH. lia.
Qed.
Lemma qsorted_of_nth l d : (forall i j, (i <= j < length l)%nat -> nth i l d <= nth j l d) -> qsorted l.
Proof.
  induction l as [|x l IH]; intro H; constructor.
  - apply IH. intros i j Hij. apply (H (S i) (S j)). simpl; lia.
  - apply Forall_forall. intros y Hy. apply (In_nth _ _ d) in Hy as (n & Hn & <-).
    apply (H 0%nat (S n)). simpl; lia.
Qed.
Lemma qsorted_of_adj l d : (forall i, (S i < length l)%nat -> nth i l d <= nth (S i) l d) -> qsorted l.
Proof.
  intro H. apply (qsorted_of_nth l d). intros i j [Hij Hj].
  induction Hij as [|j Hij IH]; [lra|].
  specialize (H j Hj). assert (nth i l d <= nth j l d) by (apply IH; lia). lra.
Qed.
Lemma qssorted_of_adj l d : (forall i, (S i < length l)%nat -> nth i l d < nth (S i) l d) -> qssorted l.
Proof.
  induction l as [|x l IH]; intro H; constructor.
  - apply IH. intros i Hi. apply (H (S i)). simpl; lia.
  - assert (Hs : qsorted l).
    { apply (qsorted_of_adj l d). intros i Hi. specialize (H (S i)). simpl in H. apply Qlt_le_weak, H. lia. }
    destruct l as [|y l]; [constructor|].
    assert (Hxy : x < y) by (apply (H 0%nat); simpl; lia).
    inversion Hs as [|? ? _ Hf]; subst. constructor; [exact Hxy|].
    eapply Forall_impl; [|exact Hf]. intros; lra.
Qed.
Lemma qsorted_app l m :
  qsorted l -> qsorted m -> (forall x y, In x l -> In y m -> x <= y) -> qsorted (l ++ m).
Proof.
  induction 1 as [|x l Hs IH Hf]; intros Hm H; simpl; [exact Hm|].
  constructor.
  - apply IH; trivial. intros a b Ha Hb. apply H; simpl; auto.
  - apply Forall_app; split; [exact Hf|]. apply Forall_forall. intros b Hb. apply H; simpl; auto.
Qed.

(** np.diff and np.all(np.diff(l) >= 0): adjacent comparison, as a boolean. *)
Fixpoint adj_all (R : Q -> Q -> bool) (l : list Q) : bool :=
  match l with
  | x :: ((y :: _) as r) => R x y && adj_all R r
  | _ => true
  end.
(** not np.any(np.diff(l) < 0) *)
Definition nondecreasing_b := adj_all Qle_bool.
Lemma nondecreasing_b_iff l : nondecreasing_b l = true <-> qsorted l.
Proof.
  unfold nondecreasing_b. induction l as [|x l IH]; [simpl; split; [constructor|easy]|].
  destruct l as [|y l]; [simpl; split; repeat constructor|].
  change (adj_all Qle_bool (x :: y :: l)) with ((x <=? y) && adj_all Qle_bool (y :: l)).
  rewrite andb_true_iff, IH, Qleb_le. split.
  - intros [H Hs]. constructor; [exact Hs|]. inversion Hs as [|? ? _ Hf]; subst.
    constructor; [exact H|]. eapply Forall_impl; [|exact Hf]. intros; lra.
  - intro Hs. inversion Hs as [|? ? Hs' Hf]; subst. inversion Hf; subst. auto.
Qed.
Definition increasing_b := adj_all Qltb.
Lemma increasing_b_iff l : increasing_b l = true <-> qssorted l.
Proof.
  unfold increasing_b. induction l as [|x l IH]; [simpl; split; [constructor|easy]|].
  destruct l as [|y l]; [simpl; split; repeat constructor|].
  change (adj_all Qltb (x :: y :: l)) with ((x <? y) && adj_all Qltb (y :: l)).
  rewrite andb_true_iff, IH, Qltb_lt. split.
  - intros [H Hs]. constructor; [exact Hs|]. inversion Hs as [|? ? _ Hf]; subst.
    constructor; [exact H|]. eapply Forall_impl; [|exact Hf]. intros; lra.
  - intro Hs. inversion Hs as [|? ? Hs' Hf]; subst. inversion Hf; subst. auto.
Qed.

(** Stable insertion sort by a boolean "<=" (np.sort, sorted, stable argsort keys). *)
Section Sort.
  Context {A : Type} (leb : A -> A -> bool).
  Fixpoint insert (x : A) (l : list A) : list A :=
    match l with
    | [] => [x]
    | y :: r => if leb x y then x :: y :: r else y :: insert x r
    end.
  Fixpoint isort (l : list A) : list A :=
    match l with [] => [] | x :: r => insert x (isort r) end.

  Lemma insert_perm x l : Permutation (x :: l) (insert x l).
  Proof.
    induction l as [|y l IH]; simpl; [reflexivity|].
    destruct (leb x y); [reflexivity|]. rewrite perm_swap. constructor. exact IH.
  Qed.
  Lemma isort_perm l : Permutation l (isort l).
  Proof.
    induction l as [|x l IH]; simpl; [reflexivity|].
    rewrite <- insert_perm. constructor. exact IH.
  Qed.
  Lemma isort_length l : length (isort l) = length l.
  Proof. symmetry. apply Permutation_length, isort_perm. Qed.

  Variable R : A -> A -> Prop.
  Hypothesis leb_R : forall x y, leb x y = true -> R x y.
  Hypothesis leb_total : forall x y, leb x y = false -> R y x.
  Hypothesis R_trans : forall x y z, R x y -> R y z -> R x z.
  Lemma insert_sorted x l : StronglySorted R l -> StronglySorted R (insert x l).
  Proof.
    induction 1 as [|y l Hs IH Hf]; simpl; [repeat constructor|].
    destruct (leb x y) eqn:E.
    - constructor; [constructor; trivial|]. constructor; [auto|].
      eapply Forall_impl; [|exact Hf]. intros a Ha. apply (R_trans x y a); auto.
    - constructor; [exact IH|]. apply Forall_forall. intros a Ha.
      apply (Permutation_in _ (Permutation_sym (insert_perm x l))) in Ha.
      destruct Ha as [<-|Ha]; [auto|]. rewrite Forall_forall in Hf. auto.
  Qed.
  Lemma isort_sorted l : StronglySorted R (isort l).
  Proof. induction l as [|x l IH]; simpl; [constructor|apply insert_sorted; exact IH]. Qed.
End Sort.

(** np.sort on numbers. *)
Definition qsort : list Q -> list Q := isort Qle_bool.
Lemma qsort_sorted l : qsorted (qsort l).
Proof.
  apply (isort_sorted Qle_bool Qle).
  - intros x y H. apply Qleb_le; exact H.
  - intros x y H. apply Qleb_gt in H. lra.
  - intros x y z; apply Qle_trans.
Qed.
Lemma qsort_perm l : Permutation l (qsort l).
Proof. apply isort_perm. Qed.
Lemma qsort_length l : length (qsort l) = length l.
Proof. apply isort_length. Qed.
Lemma qsort_id l : qsorted l -> qsort l = l.
Proof.
  induction 1 as [|x l Hs IH Hf]; [reflexivity|]. unfold qsort in *. simpl. rewrite IH.
  destruct l as [|y l]; [reflexivity|]. simpl. inversion Hf; subst.
  assert (E : (x <=? y) = true) by (apply Qleb_le; trivial). rewrite E. reflexivity.
Qed.

(** Sorted lists with the same elements agree up to rational equality. *)
Lemma qsorted_perm_eq l m : qsorted l -> qsorted m -> Permutation l m -> Forall2 Qeq l m.
Proof.
  intro Hl. revert m. induction Hl as [|x l Hs IH Hf]; intros m Hm HP.
  - apply Permutation_nil in HP. subst. constructor.
  - destruct m as [|y m]; [symmetry in HP; apply Permutation_nil in HP; discriminate|].
    inversion Hm as [|? ? Hms Hmf]; subst.
    assert (Hxy : x == y).
    { assert (In x (y :: m)) as Hx by (apply (Permutation_in x HP); simpl; auto).
      assert (In y (x :: l)) as Hy by (apply (Permutation_in y (Permutation_sym HP)); simpl; auto).
      rewrite Forall_forall in Hf, Hmf.
      destruct Hx as [<-|Hx]; [reflexivity|]. destruct Hy as [<-|Hy]; [reflexivity|].
      specialize (Hf y Hy). specialize (Hmf x Hx). lra. }
    constructor; [exact Hxy|].
    destruct (Qeq_dec x y) as [_|]; [|contradiction].
    (* remove x and y *)
    assert (HP' : exists m', Permutation l m' /\ Forall2 Qeq m' m /\ qsorted m').
    { destruct (in_split y (x :: l)) as (l1 & l2 & E).
      { apply (Permutation_in y (Permutation_sym HP)); simpl; auto. }
      destruct l1 as [|x' l1]; simpl in E.
      - injection E as -> <-. exists m. split.
        + apply Permutation_cons_inv with (a := y). exact HP.
        + split; [|exact Hms]. clear. induction m; constructor; trivial. reflexivity.
      - injection E as <- ->.
        (* m is a permutation of x :: l1 ++ l2 *)
        assert (HP2 : Permutation (x :: l1 ++ l2) m).
        { apply Permutation_cons_inv with (a := y). rewrite <- HP.
          rewrite perm_swap. constructor. apply Permutation_middle. }
        destruct (in_split x m) as (m1 & m2 & ->).
        { apply (Permutation_in x HP2). simpl; auto. }
        assert (HP3 : Permutation (l1 ++ l2) (m1 ++ m2)).
        { apply Permutation_cons_inv with (a := x). rewrite HP2. symmetry. apply Permutation_middle. }
        exists (m1 ++ y :: m2). split; [|split].
        + rewrite <- !Permutation_middle. constructor. exact HP3.
        + clear - Hxy. induction m1; simpl; constructor; trivial; try reflexivity.
          symmetry; exact Hxy. induction m2; constructor; trivial; reflexivity.
        + clear - Hms Hxy. induction m1 as [|a m1 IH]; simpl in *.
          * inversion Hms as [|? ? Hs Hf]; subst. constructor; trivial.
            eapply Forall_impl; [|exact Hf]. intros; lra.
          * inversion Hms as [|? ? Hs Hf]; subst. constructor; [apply IH; trivial|].
            rewrite Forall_app in *. destruct Hf as [H1 H2]. split; trivial.
            inversion H2; subst. constructor; trivial. lra. }
    destruct HP' as (m' & P1 & P2 & P3).
    specialize (IH m' P3 P1).
    clear - IH P2. revert m P2. induction IH as [|a b l m' Hab IH IH']; intros m P2; inversion P2; subst; constructor.
    + rewrite Hab. trivial.
    + apply IH'. trivial.
Qed.

(** Last element with default. *)
Lemma last_nth {A} (l : list A) d : last l d = nth (length l - 1) l d.
Proof.
  induction l as [|x l IH]; [reflexivity|]. destruct l as [|y l]; [reflexivity|].
  change (last (x :: y :: l) d) with (last (y :: l) d). rewrite IH. simpl.
  rewrite Nat.sub_0_r. reflexivity.
Qed.

Lemma Forall2_len {A B} (R : A -> B -> Prop) l m : Forall2 R l m -> length l = length m.
Proof. induction 1; simpl; congruence. Qed.
Lemma Forall2_Qeq_refl l : Forall2 Qeq l l.
Proof. induction l; constructor; trivial; reflexivity. Qed.
Lemma Forall2_Qeq_sym l m : Forall2 Qeq l m -> Forall2 Qeq m l.
Proof. induction 1; constructor; trivial. symmetry; trivial. Qed.
Lemma Forall2_Qeq_trans l m n : Forall2 Qeq l m -> Forall2 Qeq m n -> Forall2 Qeq l n.
Proof.
  intro H. revert n. induction H; intros n Hn; inversion Hn; subst; constructor; auto.
  etransitivity; eauto.
Qed.
Lemma Forall2_Qeq_qsum l m : Forall2 Qeq l m -> qsum l == qsum m.
Proof. induction 1; simpl; lra. Qed.
Lemma Forall2_Qeq_nth l m i d : Forall2 Qeq l m -> nth i l d == nth i m d.
Proof. intro H. revert i. induction H; intros [|i]; simpl; trivial; reflexivity. Qed.
Lemma Forall2_Qeq_of_nth l m d : length l = length m ->
  (forall i, (i < length l)%nat -> nth i l d == nth i m d) -> Forall2 Qeq l m.
Proof.
  revert m. induction l as [|x l IH]; intros [|y m] HL H; simpl in HL; try discriminate; constructor.
  - apply (H 0%nat). simpl; lia.
  - apply IH; [lia|]. intros i Hi. apply (H (S i)). simpl; lia.
Qed.
Lemma qsorted_Qeq l m : Forall2 Qeq l m -> qsorted l -> qsorted m.
Proof.
  intros H Hs. apply (qsorted_of_nth m 0). intros i j Hij.
  rewrite <- !(Forall2_Qeq_nth l m) by exact H. apply qsorted_nth; trivial.
  rewrite (Forall2_len _ _ _ H). trivial.
Qed.
Lemma nth_map_seq {A} (f : nat -> A) n i d : (i < n)%nat -> nth i (map f (seq 0 n)) d = f i.
Proof.
  intro H. rewrite nth_indep with (d' := f 0%nat) by (rewrite map_length, seq_length; exact H).
  rewrite map_nth. rewrite seq_nth by exact H. reflexivity.
Qed.
Lemma nth_map_lt {A B} (f : A -> B) l i d d' : (i < length l)%nat -> nth i (map f l) d' = f (nth i l d).
Proof.
  intro H. rewrite nth_indep with (d' := f d) by (rewrite map_length; exact H). apply map_nth.
Qed.

(** Minimum and maximum of a non-empty vector (np.min, np.max, Python max()). *)
Fixpoint qmaxl (x : Q) (l : list Q) : Q := match l with [] => x | y :: r => qmaxl (Qmax x y) r end.
Fixpoint qminl (x : Q) (l : list Q) : Q := match l with [] => x | y :: r => qminl (Qmin x y) r end.
Lemma qmaxl_ge_head x l : x <= qmaxl x l.
Proof. revert x. induction l as [|y l IH]; intro x; simpl; [lra|]. specialize (IH (Qmax x y)). pose proof (Q.le_max_l x y). lra. Qed.
Lemma qmaxl_ge x l y : In y (x :: l) -> y <= qmaxl x l.
Proof.
  revert x. induction l as [|z l IH]; intros x [<-|H]; simpl in *; try easy; try lra.
  - pose proof (qmaxl_ge_head (Qmax x z) l). pose proof (Q.le_max_l x z). lra.
  - destruct H as [<-|H].
    + pose proof (qmaxl_ge_head (Qmax x z) l). pose proof (Q.le_max_r x z). lra.
    + apply IH. auto.
Qed.
Lemma qmaxl_in x l : exists y, In y (x :: l) /\ qmaxl x l == y.
Proof.
  revert x. induction l as [|z l IH]; intro x; simpl; [exists x; split; [auto|reflexivity]|].
  destruct (IH (Qmax x z)) as (y & [Hy|Hy] & E).
  - destruct (Qmax_cases x z) as [[H1 H2]|[H1 H2]].
    + exists z; split; auto. rewrite E, <- Hy; trivial.
    + exists x; split; auto. rewrite E, <- Hy; trivial.
  - exists y; auto.
Qed.
Lemma qmaxl_lub x l b : Forall (fun y => y <= b) (x :: l) -> qmaxl x l <= b.
Proof.
  intro H. destruct (qmaxl_in x l) as (y & Hy & E). rewrite Forall_forall in H.
  rewrite E. apply H; exact Hy.
Qed.
Lemma qminl_le x l y : In y (x :: l) -> qminl x l <= y.
Proof.
  assert (Hh : forall l x, qminl x l <= x).
  { clear. induction l as [|y l IH]; intro x; simpl; [lra|]. specialize (IH (Qmin x y)). pose proof (Q.le_min_l x y). lra. }
  revert x. induction l as [|z l IH]; intros x [<-|H]; simpl in *; try easy; try lra.
  - pose proof (Hh l (Qmin x z)). pose proof (Q.le_min_l x z). lra.
  - destruct H as [<-|H].
    + pose proof (Hh l (Qmin x z)). pose proof (Q.le_min_r x z). lra.
    + apply IH. auto.
Qed.
Lemma qminl_in x l : exists y, In y (x :: l) /\ qminl x l == y.
Proof.
  revert x. induction l as [|z l IH]; intro x; simpl; [exists x; split; [auto|reflexivity]|].
  destruct (IH (Qmin x z)) as (y & [Hy|Hy] & E).
  - destruct (Qmin_cases x z) as [[H1 H2]|[H1 H2]].
    + exists x; split; auto. rewrite E, <- Hy; trivial.
    + exists z; split; auto. rewrite E, <- Hy; trivial.
  - exists y; auto.
Qed.
Lemma qminl_glb x l b : Forall (fun y => b <= y) (x :: l) -> b <= qminl x l.
Proof.
  intro H. destruct (qminl_in x l) as (y & Hy & E). rewrite Forall_forall in H.
  rewrite E. apply H; exact Hy.
Qed.
