(** Lemmas for Props_Frames.v *)
From Verif Require Import Base Model_Frames.
From Verif Require Props_Rainforests.
Local Open Scope Q_scope.

(** ** Orders *)
Record good {A} (c : A -> A -> comparison) : Prop := {
  g_anti : forall a b, c a b = CompOpp (c b a);
  g_eq : forall a b d, c a b = Eq -> c a d = c b d;
  g_lt : forall a b d, c a b = Lt -> c b d = Lt -> c a d = Lt }.
Lemma good_eq_r {A} (c : A -> A -> comparison) : good c -> forall a b d, c b d = Eq -> c a b = c a d.
Proof. intros G a b d E. rewrite (g_anti c G a b), (g_anti c G a d). f_equal. now apply (g_eq c G). Qed.
Lemma good_then {A} (c d : A -> A -> comparison) : good c -> good d -> good (fun a b => then_cmp (c a b) (d a b)).
Proof.
  intros C D. split; cbn.
  - intros a b. rewrite (g_anti c C a b), (g_anti d D a b). destruct (c b a); reflexivity.
  - intros a b e. destruct (c a b) eqn:E; cbn; try discriminate. intro F. now rewrite (g_eq c C a b e E), (g_eq d D a b e F).
  - intros a b e. destruct (c a b) eqn:E; cbn; try discriminate; intro H.
    + rewrite (g_eq c C a b e E). destruct (c b e); cbn; try discriminate; [|reflexivity]. intro H'. exact (g_lt d D a b e H H').
    + destruct (c b e) eqn:F; cbn; try discriminate; intro H'; [rewrite <- (good_eq_r c C a b e F), E; reflexivity|]. now rewrite (g_lt c C a b e E F).
Qed.
Lemma good_on {A B} (f : A -> B) (c : B -> B -> comparison) : good c -> good (fun a b => c (f a) (f b)).
Proof. intros [X Y Z]. split; eauto. Qed.
Lemma good_Z : good Z.compare.
Proof. split; [intros; apply Z.compare_antisym|intros a b d E; apply Z.compare_eq in E; now subst|intros a b d; rewrite !Z.compare_lt_iff; lia]. Qed.
Lemma good_Q : good Qcompare.
Proof. split; [intros; symmetry; apply Qcompare_antisym|intros a b d E; apply Qeq_alt in E; now rewrite E|intros a b d; rewrite <- !Qlt_alt; lra]. Qed.
Lemma good_string : good String.compare.
Proof. split; [apply String.compare_antisym|intros a b d E; apply String.compare_eq_iff in E; now subst|apply Props_Rainforests.str_compare_trans]. Qed.
Lemma good_text : good text_cmp.
Proof.
  destruct good_string as [X Y Z]. split.
  - intros [a|] [b|]; cbn; auto.
  - intros [a|] [b|] [d|]; cbn; auto; discriminate.
  - intros [a|] [b|] [d|]; cbn; auto; try discriminate. apply Z.
Qed.
Lemma good_row : good row_cmp.
Proof.
  unfold row_cmp. apply (good_then (fun a b => text_cmp (st_diag (r_statics a)) (st_diag (r_statics b)))); [apply (good_on (fun r => st_diag (r_statics r)) text_cmp good_text)|].
  apply (good_then (fun a b => (r_time a ?= r_time b)%Z)); [apply (good_on r_time Z.compare good_Z)|].
  apply (good_then (fun a b => r_rep a ?= r_rep b)); [apply (good_on r_rep Qcompare good_Q)|apply (good_on r_wmo String.compare good_string)].
Qed.
Definition row_le (a b : row) : Prop := row_leb a b = true.
Lemma row_sorted l : StronglySorted row_le (isort row_leb l).
Proof.
  destruct good_row as [X Y Z]. apply isort_sorted.
  - auto.
  - unfold row_le, row_leb. intros x y. rewrite (X x y). destruct (row_cmp y x); cbn; congruence.
  - unfold row_le, row_leb. intros x y z. destruct (row_cmp x y) eqn:E; try discriminate; intros _; destruct (row_cmp y z) eqn:F; try discriminate; intros _.
    + now rewrite (Y x y z E), F. + now rewrite (Y x y z E), F. + now rewrite <- (good_eq_r _ good_row x y z F), E. + now rewrite (Z x y z E F).
Qed.
Lemma sorted_equal {A} (R : A -> A -> Prop) (l l' : list A) : (forall x y, R x y -> R y x -> False) -> StronglySorted R l -> StronglySorted R l' -> Permutation l l' -> l = l'.
Proof.
  intros As. revert l'. induction l as [|a l IH]; intros l' S S' P; [now apply Permutation_nil in P|]. destruct l' as [|b m]; [apply Permutation_sym, Permutation_nil in P; discriminate|].
  inversion S as [|? ? S1 F1]; inversion S' as [|? ? S2 F2]; subst. rewrite Forall_forall in F1, F2.
  assert (E : a = b). { assert (Ia : In a (b :: m)) by (apply (Permutation_in _ P); now left). assert (Ib : In b (a :: l)) by (apply (Permutation_in _ (Permutation_sym P)); now left). destruct Ia as [->|Ia]; [reflexivity|]. destruct Ib as [->|Ib]; [reflexivity|]. exfalso. exact (As a b (F1 b Ib) (F2 a Ia)). }
  subst b. f_equal. apply IH; [assumption|assumption|]. now apply Permutation_cons_inv in P.
Qed.

(** ** Lists *)
Lemma perm_filter {A} (f : A -> bool) l l' : Permutation l l' -> Permutation (filter f l) (filter f l').
Proof. induction 1; cbn; [constructor|destruct (f x); [now constructor|assumption]|destruct (f x), (f y); try reflexivity; apply perm_swap|etransitivity; eassumption]. Qed.
Lemma sorted_filter {A} (R : A -> A -> Prop) f (l : list A) : StronglySorted R l -> StronglySorted R (filter f l).
Proof. induction 1 as [|a l S IH F]; cbn; [constructor|]. destruct (f a); [|exact IH]. constructor; [exact IH|]. rewrite Forall_forall in *. intros x X. apply filter_In in X. now apply F. Qed.
Lemma filter_flat {A B} (f : B -> bool) (g : A -> list B) l : filter f (flat_map g l) = flat_map (fun x => filter f (g x)) l.
Proof. induction l; cbn; [reflexivity|]. now rewrite filter_app, IHl. Qed.
Lemma filter_filter {A} (f g : A -> bool) l : filter f (filter g l) = filter (fun x => g x && f x) l.
Proof. induction l as [|a l IH]; cbn; [reflexivity|]. destruct (g a); cbn; [destruct (f a); now rewrite IH|exact IH]. Qed.
Lemma filter_cong {A} (f g : A -> bool) l : (forall x, In x l -> f x = g x) -> filter f l = filter g l.
Proof. induction l as [|a l IH]; intro E; cbn; [reflexivity|]. rewrite (E a) by now left. rewrite IH; [reflexivity|]. intros x X. apply E. now right. Qed.
Lemma filter_map {A B} (f : B -> bool) (g : A -> B) l : filter f (map g l) = map g (filter (fun x => f (g x)) l).
Proof. induction l as [|a l IH]; cbn; [reflexivity|]. destruct (f (g a)); cbn; now rewrite IH. Qed.
Lemma filter_all {A} (f : A -> bool) l : (forall x, In x l -> f x = true) -> filter f l = l.
Proof. induction l as [|a l IH]; intro E; cbn; [reflexivity|]. rewrite E by now left. f_equal. apply IH. intros x X. apply E. now right. Qed.
Lemma filter_none {A} (f : A -> bool) l : (forall x, In x l -> f x = false) -> filter f l = [].
Proof. induction l as [|a l IH]; intro E; cbn; [reflexivity|]. rewrite E by now left. apply IH. intros x X. apply E. now right. Qed.
Lemma flat_map_cong {A B} (f g : A -> list B) l : (forall x, In x l -> f x = g x) -> flat_map f l = flat_map g l.
Proof. induction l as [|a l IH]; intro E; cbn; [reflexivity|]. rewrite E by now left. rewrite IH; [reflexivity|]. intros x X. apply E. now right. Qed.
Lemma find_hd {A} (f : A -> bool) l : find f l = hd_error (filter f l).
Proof. induction l as [|a l IH]; cbn; [reflexivity|]. now destruct (f a). Qed.
Lemma find_app {A} (f : A -> bool) l m : find f (l ++ m) = match find f l with Some a => Some a | None => find f m end.
Proof. induction l as [|a l IH]; cbn; [reflexivity|]. now destruct (f a). Qed.
Lemma find_map {A B} (f : B -> bool) (g : A -> B) l : find f (map g l) = option_map g (find (fun x => f (g x)) l).
Proof. induction l as [|a l IH]; cbn; [reflexivity|]. destruct (f (g a)); [reflexivity|exact IH]. Qed.
Lemma find_filter {A} (f g : A -> bool) l : find f (filter g l) = find (fun x => g x && f x) l.
Proof. induction l as [|a l IH]; cbn; [reflexivity|]. destruct (g a); cbn; [destruct (f a); [reflexivity|exact IH]|exact IH]. Qed.
Lemma filter_rev' {A} (f : A -> bool) l : filter f (rev l) = rev (filter f l).
Proof. induction l as [|a l IH]; cbn; [reflexivity|]. rewrite filter_app, IH. cbn. destruct (f a); [reflexivity|apply app_nil_r]. Qed.
Lemma pairs_perm {A} (R : A -> A -> Prop) l l' : (forall x y, R x y -> R y x) -> Permutation l l' -> ForallOrdPairs R l -> ForallOrdPairs R l'.
Proof.
  intros Sy. induction 1 as [|a l l' P IH|a b l|l l' l'' P1 IH1 P2 IH2]; intro F; [constructor| | |auto].
  - inversion F; subst. constructor; [|auto]. rewrite Forall_forall in *. intros y Y. apply (Permutation_in _ (Permutation_sym P)) in Y. auto.
  - inversion F as [|? ? F1 F2]; subst. inversion F2 as [|? ? F3 F4]; subst. inversion F1; subst. constructor; [constructor; auto|]. now constructor.
Qed.
Lemma pairs_filter {A} (R : A -> A -> Prop) f l : ForallOrdPairs R l -> ForallOrdPairs R (filter f l).
Proof. induction 1 as [|a l F1 F2 IH]; cbn; [constructor|]. destruct (f a); [|exact IH]. constructor; [|exact IH]. rewrite Forall_forall in *. intros x X. apply filter_In in X. now apply F1. Qed.
Lemma pairs_imp {A} (R S : A -> A -> Prop) l : (forall x y, In x l -> In y l -> R x y -> S x y) -> ForallOrdPairs R l -> ForallOrdPairs S l.
Proof. intro I'. induction 1 as [|a l F1 F2 IH]; constructor; [|apply IH; intros; apply I'; auto; now right]. rewrite Forall_forall in *. intros x X. apply I'; [now left|now right|now apply F1]. Qed.
Lemma pairs_sorted {A} (R : A -> A -> Prop) l : ForallOrdPairs R l <-> StronglySorted R l.
Proof. split; induction 1; constructor; auto. Qed.

(** ** unique, keep_last *)
Section uniq.
Context {A : Type} (eqb : A -> A -> bool).
Lemma unique_in x l : In x (unique eqb l) -> In x l.
Proof. induction l as [|a l IH]; cbn; [auto|]. intros [->|I']; [now left|]. apply filter_In in I' as [I' _]. right; auto. Qed.
Lemma unique_pairs l : ForallOrdPairs (fun x y => eqb x y = false) (unique eqb l).
Proof. induction l as [|a l IH]; cbn; constructor; [|now apply pairs_filter]. apply Forall_forall. intros x X. apply filter_In in X as [_ X]. now apply negb_true_iff in X. Qed.
Lemma unique_covers x l : (forall a, eqb a a = true) -> (forall a b c, eqb a b = true -> eqb b c = true -> eqb a c = true) -> In x l -> exists y, In y (unique eqb l) /\ eqb y x = true.
Proof.
  intros Rf Tr. induction l as [|a l IH]; cbn; [intros []|]. intros [->|I']; [exists x; split; [now left|apply Rf]|]. destruct (IH I') as (y & Y & E).
  destruct (eqb a y) eqn:Ay; [exists a; split; [now left|exact (Tr a y x Ay E)]|]. exists y. split; [|exact E]. right. apply filter_In. split; [exact Y|]. now rewrite Ay.
Qed.
Lemma unique_app l m : (forall a b c, eqb a b = true -> eqb b c = true -> eqb a c = true) -> unique eqb (l ++ m) = unique eqb l ++ filter (fun y => negb (existsb (fun x => eqb x y) (unique eqb l))) (unique eqb m).
Proof.
  intro Tr. induction l as [|a l IH]; cbn [app unique].
  - cbn [existsb negb]. symmetry. now apply filter_all.
  - rewrite IH, filter_app. cbn [app]. do 2 f_equal. rewrite filter_filter. apply filter_cong. intros y _. cbn [existsb].
    destruct (eqb a y) eqn:Ay; cbn; [now rewrite andb_false_r|]. rewrite andb_true_r. f_equal. apply eq_true_iff_eq. rewrite !existsb_exists. split; intros (x & X & E).
    + exists x. split; [|exact E]. apply filter_In. split; [exact X|]. destruct (eqb a x) eqn:Ax; [|reflexivity]. rewrite (Tr a x y Ax E) in Ay. discriminate.
    + apply filter_In in X as [X _]. eauto.
Qed.
Lemma unique_distinct l : ForallOrdPairs (fun x y => eqb x y = false) l -> unique eqb l = l.
Proof. induction 1 as [|a l F1 F2 IH]; cbn; [reflexivity|]. rewrite IH. f_equal. apply filter_all. rewrite Forall_forall in F1. intros x X. now rewrite F1. Qed.
Lemma unique_filter (P : A -> bool) l : (forall x y, eqb x y = true -> P x = P y) -> filter P (unique eqb l) = unique eqb (filter P l).
Proof.
  intro C. induction l as [|a l IH]; cbn; [reflexivity|]. destruct (P a) eqn:Pa; cbn.
  - rewrite <- IH. f_equal. rewrite !filter_filter. apply filter_cong. intros x _. apply andb_comm.
  - rewrite <- IH, filter_filter. apply filter_cong. intros x _. destruct (eqb a x) eqn:E; cbn; [|reflexivity]. rewrite <- (C a x E). now rewrite Pa.
Qed.
(** What is repeated later adds nothing. *)
Lemma unique_absorb l m : (forall a, eqb a a = true) -> (forall a b c, eqb a b = true -> eqb b c = true -> eqb a c = true) -> (forall y, In y m -> exists x, In x l /\ eqb x y = true) -> unique eqb (l ++ m) = unique eqb l.
Proof.
  intros Rf Tr C. rewrite unique_app by exact Tr. rewrite filter_none; [apply app_nil_r|]. intros y Y. apply unique_in in Y. destruct (C y Y) as (x & X & E). destruct (unique_covers x l Rf Tr X) as (z & Z & E').
  apply negb_false_iff, existsb_exists. exists z. split; [exact Z|exact (Tr z x y E' E)].
Qed.
Lemma keep_last_in x l : In x (keep_last eqb l) -> In x l.
Proof. induction l as [|a l IH]; cbn; [auto|]. destruct (existsb (eqb a) l); [auto|]. intros [->|I']; auto. Qed.
Lemma keep_last_pairs l : ForallOrdPairs (fun x y => eqb x y = false) (keep_last eqb l).
Proof.
  induction l as [|a l IH]; cbn; [constructor|]. destruct (existsb (eqb a) l) eqn:E; [exact IH|]. constructor; [|exact IH]. apply Forall_forall. intros x X. apply keep_last_in in X.
  destruct (eqb a x) eqn:Ax; [|reflexivity]. assert (existsb (eqb a) l = true) by (apply existsb_exists; eauto). congruence.
Qed.
(** Of the rows of one key the last is kept. *)
Lemma keep_last_find (P : A -> bool) l : (forall x y, In x l -> In y l -> P x = true -> (P y = true <-> eqb x y = true)) -> filter P (keep_last eqb l) = match find P (rev l) with Some r => [r] | None => [] end.
Proof.
  induction l as [|a l IH]; intro C; [reflexivity|]. cbn [keep_last rev]. rewrite find_app. rewrite <- IH || idtac. assert (IH' := IH ltac:(intros x y X Y; apply C; now right)).
  destruct (existsb (eqb a) l) eqn:E.
  - rewrite IH'. destruct (find P (rev l)) eqn:F; [reflexivity|]. cbn. destruct (P a) eqn:Pa; [|reflexivity]. exfalso. apply existsb_exists in E as (y & Y & E). assert (Py : P y = true) by (apply (C a y); [now left|now right|exact Pa|exact E]). apply in_rev in Y. rewrite (find_none P _ F y Y) in Py. discriminate.
  - cbn [filter]. destruct (P a) eqn:Pa; [|rewrite IH'; destruct (find P (rev l)); cbn; [reflexivity|now rewrite Pa]].
    assert (N : forall y, In y l -> P y = false). { intros y Y. destruct (P y) eqn:Py; [|reflexivity]. assert (E' : eqb a y = true) by (apply (C a y); [now left|now right|exact Pa|exact Py]). assert (existsb (eqb a) l = true) by (apply existsb_exists; eauto). congruence. }
    destruct (find P (rev l)) eqn:F; [apply find_some in F as [F1 F2]; apply in_rev in F1; rewrite N in F2 by exact F1; discriminate|]. rewrite IH'. cbn. now rewrite Pa.
Qed.
End uniq.
Lemma unique_iff {A} eqb (x : A) l : (forall a b, eqb a b = true <-> a = b) -> (In x (unique eqb l) <-> In x l).
Proof. intro E. split; [apply unique_in|]. intro I'. destruct (unique_covers eqb x l) as (y & Y & Ey); [intro a; now apply E|intros a b c; rewrite !E; congruence|exact I'|]. apply E in Ey. now subst. Qed.
Lemma unique_NoDup {A} (eqb : A -> A -> bool) l : (forall a, eqb a a = true) -> NoDup (unique eqb l).
Proof. intro Rf. pose proof (unique_pairs eqb l) as F. induction F as [|a m F1 F2 IH]; constructor; [|exact IH]. intro I'. rewrite Forall_forall in F1. specialize (F1 a I'). rewrite Rf in F1. discriminate. Qed.

(** ** What identifies a row, and its value *)
Definition core (r : row) : string * Z * Q * option Q := (r_wmo r, r_time r, r_rep r, r_value r).
Definition diag (r : row) : option string := st_diag (r_statics r).
Lemma core_with r v : core (with_statics r v) = core r. Proof. reflexivity. Qed.
Lemma core_forward seen l : map core (forward_fill seen l) = map core l.
Proof. revert seen. induction l as [|r l IH]; intro seen; [reflexivity|]. cbn [forward_fill map]. now rewrite IH. Qed.
Lemma core_backward l : map core (backward_fill l) = map core l.
Proof. induction l as [|r l IH]; [reflexivity|]. cbn [backward_fill map]. rewrite IH. f_equal. destruct (backward_fill l); reflexivity. Qed.
Lemma core_consistent l : map core (consistent l) = map core l.
Proof. unfold consistent. destruct (_ || _); [|reflexivity]. now rewrite map_map. Qed.
Lemma filter_core (P : row -> bool) (P' : string * Z * Q * option Q -> bool) l : (forall r, P r = P' (core r)) -> map core (filter P l) = filter P' (map core l).
Proof. intro E. induction l as [|r l IH]; cbn; [reflexivity|]. rewrite E. destruct (P' (core r)); cbn; now rewrite IH. Qed.
Definition at_date (t : Z) (p : Q) (r : row) : bool := (t =? r_time r)%Z && Qeq_bool p (r_rep r).
Lemma Qeqb_refl q : Qeq_bool q q = true. Proof. apply Qeqb_eq. reflexivity. Qed.
Lemma Qeqb_trans a b c : Qeq_bool a b = true -> Qeq_bool b c = true -> Qeq_bool a c = true.
Proof. rewrite !Qeqb_eq. intros -> ->. reflexivity. Qed.
Lemma Qeqb_sym a b : Qeq_bool a b = Qeq_bool b a.
Proof. apply eq_true_iff_eq. rewrite !Qeqb_eq. split; intro; now symmetry. Qed.
Lemma flat_single {A B} (sel : A -> bool) (f : A -> list B) l x : In x l -> sel x = true -> ForallOrdPairs (fun a b => sel a = true -> sel b = true -> False) l -> flat_map (fun a => if sel a then f a else []) l = f x.
Proof.
  intros I' Sx F. induction F as [|a l F1 F2 IH]; [destruct I'|]. cbn. destruct I' as [->|I'].
  - rewrite Sx. replace (flat_map _ l) with (@nil B); [apply app_nil_r|]. symmetry. clear -F1 Sx. induction l as [|b l IH]; [reflexivity|]. inversion F1 as [|? ? X Y]; subst. cbn. destruct (sel b); [exfalso; now apply X|]. cbn. now apply IH.
  - destruct (sel a) eqn:Sa; [exfalso; rewrite Forall_forall in F1; exact (F1 x I' eq_refl Sx)|]. now apply IH.
Qed.
Section completed.
Variable F : list row.
Let sites := unique String.eqb (map r_wmo F).
Let times := unique Z.eqb (map r_time F).
Let reps := unique Qeq_bool (map r_rep F).
Definition cell (s : string) (t : Z) (p : Q) : option Q := match find (at_key s t p) F with Some r => r_value r | None => None end.
Definition cell_row (s : string) (t : Z) (p : Q) : row := match find (at_key s t p) F with
  | Some r => {| r_wmo := s; r_time := t; r_rep := p; r_value := r_value r; r_statics := r_statics r |}
  | None => {| r_wmo := s; r_time := t; r_rep := p; r_value := None; r_statics := nothing |} end.
Lemma completed_eq : completed F = flat_map (fun s => flat_map (fun t => map (cell_row s t) reps) times) sites.
Proof. reflexivity. Qed.
Lemma cell_core s t p : core (cell_row s t p) = (s, t, p, cell s t p).
Proof. unfold cell_row, cell, core. destruct (find _ F); reflexivity. Qed.
Lemma cell_time s t p : r_time (cell_row s t p) = t. Proof. unfold cell_row. destruct (find _ F); reflexivity. Qed.
Lemma cell_rep s t p : r_rep (cell_row s t p) = p. Proof. unfold cell_row. destruct (find _ F); reflexivity. Qed.
Lemma cell_wmo s t p : r_wmo (cell_row s t p) = s. Proof. unfold cell_row. destruct (find _ F); reflexivity. Qed.
Lemma completed_at t p : In t times -> In p reps -> filter (at_date t p) (completed F) = map (fun s => cell_row s t p) sites.
Proof.
  intros It Ip. rewrite completed_eq, filter_flat. transitivity (flat_map (fun s => [cell_row s t p]) sites); [|induction sites as [|s l IH]; cbn; [reflexivity|now rewrite IH]].
  apply flat_map_cong. intros s _. rewrite filter_flat. rewrite (flat_map_cong _ (fun t' => if (t =? t')%Z then filter (at_date t p) (map (cell_row s t') reps) else [])).
  2: { intros t' _. destruct (t =? t')%Z eqn:E; [reflexivity|]. apply filter_none. intros r R'. apply in_map_iff in R' as (q & <- & _). unfold at_date. rewrite cell_time, E. reflexivity. }
  rewrite (flat_single (fun t' => (t =? t')%Z) _ times t It (Z.eqb_refl t)).
  2: { apply (pairs_imp (fun x y => (x =? y)%Z = false)); [|apply unique_pairs]. intros x y _ _ N A B. lia. }
  rewrite filter_map. assert (E : filter (fun q => at_date t p (cell_row s t q)) reps = [p]); [|rewrite E; reflexivity].
  transitivity (filter (Qeq_bool p) reps); [apply filter_cong; intros q _; unfold at_date; rewrite cell_time, cell_rep, Z.eqb_refl; reflexivity|].
  transitivity (flat_map (fun q => if Qeq_bool p q then [q] else []) reps); [clear; induction reps as [|q l IH]; cbn; [reflexivity|]; rewrite IH; destruct (Qeq_bool p q); reflexivity|].
  apply (flat_single (Qeq_bool p) (fun q => [q]) reps p Ip (Qeqb_refl p)). apply (pairs_imp (fun x y => Qeq_bool x y = false)); [|apply unique_pairs]. intros x y _ _ N A B. rewrite Qeqb_sym in A. rewrite (Qeqb_trans x p y A B) in N. discriminate.
Qed.
Lemma completed_in r : In r (completed F) <-> exists s t p, In s sites /\ In t times /\ In p reps /\ r = cell_row s t p.
Proof.
  rewrite completed_eq, in_flat_map. split.
  - intros (s & S1 & H). apply in_flat_map in H as (t & T1 & H). apply in_map_iff in H as (p & <- & P1). exists s, t, p. auto.
  - intros (s & t & p & S1 & T1 & P1 & ->). exists s. split; [exact S1|]. apply in_flat_map. exists t. split; [exact T1|]. now apply in_map.
Qed.
End completed.

(** ** The diagnostic of filled rows *)
Section fill.
Variable g : string.
Definition maybe (r : row) : Prop := diag r = None \/ diag r = Some g.
Lemma over_diag a b : st_diag (over a b) = orelse (st_diag a) (st_diag b). Proof. reflexivity. Qed.
Lemma latest_cons s r seen : latest s (r :: seen) = if String.eqb s (r_wmo r) then r_statics r else latest s seen.
Proof. unfold latest. cbn. now destruct (String.eqb s (r_wmo r)). Qed.
Lemma forward_maybe l : forall seen, Forall maybe l -> Forall maybe seen -> Forall maybe (forward_fill seen l).
Proof.
  induction l as [|r l IH]; intros seen F G; [constructor|]. inversion F as [|? ? X Y]; subst. cbn [forward_fill].
  assert (M : maybe (with_statics r (over (r_statics r) (latest (r_wmo r) seen)))).
  { unfold maybe, diag. cbn [r_statics with_statics]. rewrite over_diag. destruct X as [X|X]; unfold diag in X; rewrite X; cbn [orelse]; [|auto]. unfold latest. destruct (find _ seen) as [q|] eqn:Fq; [|now left]. apply find_some in Fq as [Fq _]. rewrite Forall_forall in G. exact (G q Fq). }
  constructor; [exact M|]. apply IH; [exact Y|]. now constructor.
Qed.
Lemma forward_last l : forall seen d, l <> [] -> Forall maybe l ->
  (st_diag (latest (r_wmo (last l d)) seen) = Some g \/ exists r, In r l /\ r_wmo r = r_wmo (last l d) /\ diag r = Some g) -> diag (last (forward_fill seen l) d) = Some g.
Proof.
  induction l as [|r l IH]; intros seen d N F H; [congruence|]. inversion F as [|? ? X Y]; subst. cbn [forward_fill]. set (r' := with_statics r _). destruct l as [|r2 l].
  - cbn [last] in *. change (last (r' :: forward_fill (r' :: seen) []) d) with r'. unfold r', diag. cbn [r_statics with_statics]. change (st_diag (over (r_statics r) (latest (r_wmo r) seen)) = Some g). rewrite over_diag. destruct X as [X|X]; unfold diag in X; rewrite X; cbn [orelse]; [|reflexivity]. destruct H as [H|(q & [<-|[]] & _ & Q1)]; [exact H|]. unfold diag in Q1. congruence.
  - assert (L : forall m, last (r' :: forward_fill m (r2 :: l)) d = last (forward_fill m (r2 :: l)) d) by reflexivity. rewrite L. apply IH; [discriminate|exact Y|]. change (last (r :: r2 :: l) d) with (last (r2 :: l) d) in H. rewrite latest_cons. change (r_wmo r') with (r_wmo r).
    assert (K : forall v, st_diag v = Some g -> st_diag (over (r_statics r) v) = Some g). { intros v V. rewrite over_diag. destruct X as [X|X]; unfold diag in X; rewrite X; [exact V|reflexivity]. }
    destruct H as [H|(q & [<-|Iq] & Q1 & Q2)]; [left|left|right; eauto].
    + destruct (String.eqb _ (r_wmo r)) eqn:E; [|exact H]. apply String.eqb_eq in E. unfold r'. cbn [r_statics with_statics]. apply K. now rewrite <- E.
    + rewrite <- Q1, String.eqb_refl. unfold r'. cbn [r_statics with_statics]. rewrite over_diag. unfold diag in Q2. now rewrite Q2.
Qed.
Lemma backward_all l d : l <> [] -> Forall maybe l -> diag (last l d) = Some g -> Forall (fun r => diag r = Some g) (backward_fill l).
Proof.
  induction l as [|r l IH]; intros N F L; [congruence|]. inversion F as [|? ? X Y]; subst. cbn [backward_fill]. destruct l as [|r2 l]; [cbn in *; constructor; [exact L|constructor]|].
  assert (IH' := IH ltac:(discriminate) Y L). destruct (backward_fill (r2 :: l)) as [|n t] eqn:E.
  - apply (f_equal (map core)) in E. rewrite core_backward in E. discriminate.
  - constructor; [|exact IH']. unfold diag. cbn [r_statics with_statics]. rewrite over_diag. destruct X as [X|X]; unfold diag in X; rewrite X; cbn [orelse]; [|reflexivity]. inversion IH'; subst. assumption.
Qed.
Lemma last_in {A} (l : list A) d : l <> [] -> In (last l d) l.
Proof. induction l as [|a l IH]; [congruence|]. intros _. destruct l as [|b l]; [now left|]. right. apply IH. discriminate. Qed.
Lemma completed_nonempty F : F <> [] -> completed F <> [].
Proof.
  destruct F as [|r F]; [congruence|]. intros _ E. assert (I' : In (cell_row (r :: F) (r_wmo r) (r_time r) (r_rep r)) (completed (r :: F))); [|rewrite E in I'; destruct I'].
  apply completed_in. exists (r_wmo r), (r_time r), (r_rep r). repeat split; cbn; now left.
Qed.
Lemma filled_diag F : Forall (fun r => diag r = Some g) F -> F <> [] -> Forall (fun r => diag r = Some g) (backward_fill (forward_fill [] (completed F))).
Proof.
  intros Fg N. pose proof (completed_nonempty F N) as C. set (d := {| r_wmo := ""; r_time := 0; r_rep := 0; r_value := None; r_statics := nothing |}). rewrite Forall_forall in Fg.
  assert (M : Forall maybe (completed F)). { apply Forall_forall. intros r I'. apply completed_in in I' as (s & t & p & _ & _ & _ & ->). unfold cell_row, maybe, diag. destruct (find _ F) as [q|] eqn:E; cbn; [right|now left]. apply find_some in E as [E _]. exact (Fg q E). }
  apply (backward_all _ d).
  - intro E. apply (f_equal (map core)) in E. rewrite core_forward in E. now apply map_eq_nil in E.
  - now apply forward_maybe.
  - apply forward_last; [exact C|exact M|]. right. pose proof (last_in (completed F) d C) as I'. apply completed_in in I' as (s & t & p & Is & _ & _ & E). rewrite E, cell_wmo.
    apply unique_in in Is. apply in_map_iff in Is as (q & <- & Iq). destruct (unique_covers Qeq_bool (r_rep q) (map r_rep F) Qeqb_refl Qeqb_trans) as (p' & P1 & P2); [now apply in_map|].
    exists (cell_row F (r_wmo q) (r_time q) p'). split; [apply completed_in; exists (r_wmo q), (r_time q), p'; repeat split; [apply unique_iff; [apply String.eqb_eq|now apply in_map]|apply unique_iff; [apply Z.eqb_eq|now apply in_map]|exact P1]|].
    split; [apply cell_wmo|]. unfold cell_row, diag. destruct (find (at_key (r_wmo q) (r_time q) p') F) as [q'|] eqn:Fq; cbn; [apply find_some in Fq as [Fq _]; exact (Fg q' Fq)|]. exfalso. pose proof (find_none _ _ Fq q Iq) as X. unfold at_key in X. rewrite String.eqb_refl, Z.eqb_refl, P2 in X. discriminate.
Qed.
Lemma consistent_diag l : Forall (fun r => diag r = Some g) l -> Forall (fun r => diag r = Some g) (consistent l).
Proof. intro F. unfold consistent. destruct (_ || _); [|exact F]. apply Forall_map. exact F. Qed.
Lemma forward_shape l seen : length (forward_fill seen l) = length l. Proof. rewrite <- (map_length core), core_forward. apply map_length. Qed.

(** ** One date and percentile or realization of the prepared table: the sites in order *)
Lemma same_date_le x y t p : diag x = Some g -> diag y = Some g -> at_date t p x = true -> at_date t p y = true -> row_le x y -> String.leb (r_wmo x) (r_wmo y) = true.
Proof.
  unfold diag, at_date, row_le, row_leb, row_cmp. intros -> -> A B. apply andb_true_iff in A as [A1 A2], B as [B1 B2]. apply Z.eqb_eq in A1, B1. rewrite <- A1, <- B1, Z.compare_refl. cbn [text_cmp]. rewrite Props_Rainforests.str_refl. cbn [then_cmp].
  apply Qeqb_eq in A2, B2. assert (E : r_rep x ?= r_rep y = Eq) by (apply Qeq_alt; now rewrite <- A2, <- B2). rewrite E. cbn [then_cmp]. unfold String.leb. now destruct (String.compare _ _).
Qed.
Lemma prepared_rows F G t p : map core G = map core (completed F) -> Forall (fun r => diag r = Some g) G -> In t (unique Z.eqb (map r_time F)) -> In p (unique Qeq_bool (map r_rep F)) ->
  map core (filter (at_date t p) (isort row_leb G)) = map (fun s => (s, t, p, cell F s t p)) (isort String.leb (unique String.eqb (map r_wmo F))).
Proof.
  intros C D It Ip. set (X := filter (at_date t p) (isort row_leb G)). set (ss := unique String.eqb (map r_wmo F)). set (P' := fun c : string * Z * Q * option Q => (t =? snd (fst (fst c)))%Z && Qeq_bool p (snd (fst c))).
  assert (Pc : Permutation (map core X) (map (fun s => (s, t, p, cell F s t p)) ss)).
  { unfold X. rewrite <- (Permutation_map core (perm_filter (at_date t p) _ _ (isort_perm row_leb G))). rewrite (filter_core _ P') by reflexivity. rewrite C. rewrite <- (filter_core (at_date t p) P') by reflexivity. rewrite completed_at by assumption. rewrite map_map. erewrite map_ext; [reflexivity|]. intro s. apply cell_core. }
  assert (Pw : Permutation (map r_wmo X) ss). { apply (Permutation_map (fun c => fst (fst (fst c)))) in Pc. rewrite !map_map in Pc. cbn in Pc. now rewrite map_id in Pc. }
  assert (Nd : NoDup (map r_wmo X)). { apply (Permutation_NoDup (Permutation_sym Pw)). apply unique_NoDup. apply String.eqb_refl. }
  assert (So : StronglySorted row_le X) by (apply sorted_filter, row_sorted).
  assert (DX : Forall (fun r => diag r = Some g /\ at_date t p r = true) X). { apply Forall_forall. intros r I'. apply filter_In in I' as [I' A]. split; [|exact A]. rewrite Forall_forall in D. apply D. exact (Permutation_in _ (Permutation_sym (isort_perm row_leb G)) I'). }
  assert (Sw : isort String.leb ss = map r_wmo X). { apply Props_Rainforests.names_sorted; [|now symmetry]. clear Pc Pw. induction So as [|x X' So IH F1]; [constructor|]. cbn [map] in *. inversion Nd as [|? ? Nx Nd']; subst. inversion DX as [|? ? [Dx Ax] DX']; subst. constructor; [now apply IH|]. apply Forall_map. rewrite Forall_forall in *. intros y Y. destruct (DX' y Y) as [Dy Ay]. pose proof (same_date_le x y t p Dx Dy Ax Ay (F1 y Y)) as L. apply Props_Rainforests.str_leb_cases in L as [L|L]; [exact L|]. exfalso. apply Nx. rewrite L. now apply in_map. }
  rewrite Sw, map_map. apply map_ext_in. intros x I'. assert (Ic : In (core x) (map core X)) by now apply in_map. apply (Permutation_in _ Pc) in Ic. apply in_map_iff in Ic as (s & E & _). rewrite <- E. unfold core in E. apply pair_equal_spec in E as [E _]. apply pair_equal_spec in E as [E _]. apply pair_equal_spec in E as [-> _]. reflexivity.
Qed.
End fill.

(** ** The rows of both tables that are matched *)
Section match_.
Variable g : string.
Lemma same_row_key a b : diag a = Some g -> diag b = Some g -> (same_row a b = true <-> at_key (r_wmo a) (r_time a) (r_rep a) b = true).
Proof.
  unfold diag, same_row, row_cmp, at_key. intros -> ->. cbn [text_cmp]. rewrite Props_Rainforests.str_refl. cbn [then_cmp]. destruct (r_time a ?= r_time b)%Z eqn:E; cbn [then_cmp].
  - apply Z.compare_eq in E. rewrite E, Z.eqb_refl, andb_true_r. destruct (r_rep a ?= r_rep b) eqn:F; cbn [then_cmp].
    + apply Qeq_alt in F. assert (F' : Qeq_bool (r_rep a) (r_rep b) = true) by now apply Qeqb_eq. rewrite F', andb_true_r. destruct (String.compare (r_wmo a) (r_wmo b)) eqn:C.
      * apply String.compare_eq_iff in C. rewrite C, String.eqb_refl. tauto.
      * split; [discriminate|]. intro H. apply String.eqb_eq in H. rewrite H, Props_Rainforests.str_refl in C. discriminate.
      * split; [discriminate|]. intro H. apply String.eqb_eq in H. rewrite H, Props_Rainforests.str_refl in C. discriminate.
    + split; [discriminate|]. intro H. apply andb_true_iff in H as [_ H]. apply Qeqb_eq in H. apply Qlt_alt in F. lra.
    + split; [discriminate|]. intro H. apply andb_true_iff in H as [_ H]. apply Qeqb_eq in H. apply Qgt_alt in F. lra.
  - split; [discriminate|]. intro H. apply andb_true_iff in H as [H _]. apply andb_true_iff in H as [_ H]. apply Z.eqb_eq in H. rewrite H, Z.compare_refl in E. discriminate.
  - split; [discriminate|]. intro H. apply andb_true_iff in H as [H _]. apply andb_true_iff in H as [_ H]. apply Z.eqb_eq in H. rewrite H, Z.compare_refl in E. discriminate.
Qed.
Lemma at_key_iff s t p r : at_key s t p r = true <-> s = r_wmo r /\ t = r_time r /\ p == r_rep r.
Proof. unfold at_key. rewrite !andb_true_iff, String.eqb_eq, Z.eqb_eq, Qeqb_eq. tauto. Qed.
Lemma dropped_in l r : In r (drop_duplicates l) -> In r l.
Proof. intro I'. apply (Permutation_in _ (Permutation_sym (isort_perm _ _))) in I'. now apply keep_last_in in I'. Qed.
(** In a table without repeats the row of a key is the last one about it. *)
Lemma dropped_find l s t p : Forall (fun r => diag r = Some g) l -> filter (at_key s t p) (drop_duplicates l) = match find (at_key s t p) (rev l) with Some r => [r] | None => [] end.
Proof.
  intro D. rewrite Forall_forall in D. rewrite <- (keep_last_find same_row).
  2: { intros x y X Y P. rewrite (same_row_key x y (D x X) (D y Y)). rewrite at_key_iff in P. rewrite !at_key_iff. destruct P as (-> & -> & E). split; intros (A & B & C); (split; [assumption|]); (split; [assumption|]); lra. }
  assert (P : Permutation (filter (at_key s t p) (keep_last same_row l)) (filter (at_key s t p) (drop_duplicates l))) by (apply perm_filter, isort_perm).
  rewrite (keep_last_find same_row) in P |- *.
  2,3: intros x y X Y P'; rewrite (same_row_key x y (D x X) (D y Y)); rewrite at_key_iff in P'; rewrite !at_key_iff; destruct P' as (-> & -> & E); split; intros (A & B & C); (split; [assumption|]); (split; [assumption|]); lra.
  destruct (find _ (rev l)); [now apply Permutation_length_1_inv in P|now apply Permutation_nil in P].
Qed.
Lemma dropped_same l (P : string -> Z -> bool) : Forall (fun r => diag r = Some g) l -> existsb (fun r => P (r_wmo r) (r_time r)) (drop_duplicates l) = existsb (fun r => P (r_wmo r) (r_time r)) l.
Proof.
  intro D. apply eq_true_iff_eq. rewrite !existsb_exists. split; intros (r & I' & E); [exists r; split; [now apply dropped_in|exact E]|].
  assert (F : filter (at_key (r_wmo r) (r_time r) (r_rep r)) (drop_duplicates l) <> []).
  { rewrite (dropped_find l _ _ _ D). destruct (find _ (rev l)) eqn:Fn; [discriminate|]. apply in_rev in I'. pose proof (find_none _ _ Fn r I') as X. exfalso. assert (Y : at_key (r_wmo r) (r_time r) (r_rep r) r = true) by (apply at_key_iff; repeat split; reflexivity). congruence. }
  destruct (filter _ (drop_duplicates l)) as [|q m] eqn:Fq; [congruence|]. assert (Iq : In q (filter (at_key (r_wmo r) (r_time r) (r_rep r)) (drop_duplicates l))) by (rewrite Fq; now left). apply filter_In in Iq as [Iq K]. apply at_key_iff in K as (K1 & K2 & _). exists q. split; [exact Iq|]. now rewrite <- K1, <- K2.
Qed.
Lemma not_repeated l : Forall (fun r => diag r = Some g) l -> ForallOrdPairs (fun x y => same_row x y = false) l -> repeated l = false.
Proof.
  intros D F. induction F as [|a l F1 F2 IH]; [reflexivity|]. inversion D as [|? ? Da Dl]; subst. cbn [repeated]. rewrite IH by exact Dl. rewrite orb_false_r. destruct (existsb (clash a) l) eqn:E; [|reflexivity]. exfalso. apply existsb_exists in E as (y & Y & E). rewrite Forall_forall in F1, Dl. pose proof (F1 y Y) as N. unfold clash in E. apply (same_row_key a y Da (Dl y Y)) in E. congruence.
Qed.
Lemma same_row_sym x y : same_row x y = same_row y x.
Proof. unfold same_row. rewrite (g_anti _ good_row x y). now destruct (row_cmp y x). Qed.
Lemma dropped_pairs l : ForallOrdPairs (fun x y => same_row x y = false) (drop_duplicates l).
Proof. apply (pairs_perm _ (keep_last same_row l)); [intros x y H; now rewrite same_row_sym|apply isort_perm|apply keep_last_pairs]. Qed.
Variables f t : list row.
Hypothesis Df : Forall (fun r => diag r = Some g) f.
Hypothesis Dt : Forall (fun r => diag r = Some g) t.
Definition both (s : string) : bool := has_site f s && has_site t s.
Definition truth_at (d : Z) : bool := existsb (fun r => both (r_wmo r) && (d =? r_time r)%Z) t.
Definition forecast_at (d : Z) : bool := existsb (fun r => both (r_wmo r) && (d =? r_time r)%Z) f.
Let m := matched (drop_duplicates f) (drop_duplicates t).
Lemma has_site_dropped l s : Forall (fun r => diag r = Some g) l -> has_site (drop_duplicates l) s = has_site l s.
Proof. intro D. unfold has_site. exact (dropped_same l (fun w _ => String.eqb s w) D). Qed.
Lemma matched_forecasts : fst m = filter (fun r => both (r_wmo r) && truth_at (r_time r)) (drop_duplicates f).
Proof.
  unfold m, matched. cbn [fst snd]. rewrite filter_filter. apply filter_cong. intros r _. rewrite !has_site_dropped by assumption. fold (both (r_wmo r)). f_equal. unfold has_time, truth_at.
  rewrite <- (dropped_same t (fun w d => both w && (r_time r =? d)%Z) Dt). apply eq_true_iff_eq. rewrite !existsb_exists. split; intros (x & X & E).
  - apply filter_In in X as [X B]. rewrite !has_site_dropped in B by assumption. exists x. split; [exact X|]. unfold both. now rewrite B, E.
  - apply andb_true_iff in E as [B E]. exists x. split; [|exact E]. apply filter_In. split; [exact X|]. rewrite !has_site_dropped by assumption. exact B.
Qed.
Lemma matched_truths : snd m = filter (fun r => both (r_wmo r) && (forecast_at (r_time r) && truth_at (r_time r))) (drop_duplicates t).
Proof.
  pose proof matched_forecasts as M. unfold m, matched in M |- *. cbn [fst snd] in M |- *. rewrite M. rewrite filter_filter. apply filter_cong. intros r Ir. rewrite !has_site_dropped by assumption. fold (both (r_wmo r)). destruct (both (r_wmo r)) eqn:B; [|reflexivity]. cbn [andb].
  unfold has_time.
  assert (Tr : truth_at (r_time r) = true). { unfold truth_at. apply existsb_exists. exists r. split; [now apply dropped_in|]. now rewrite B, Z.eqb_refl. }
  rewrite Tr, andb_true_r. unfold forecast_at. rewrite <- (dropped_same f (fun w d => both w && (r_time r =? d)%Z) Df). apply eq_true_iff_eq. rewrite !existsb_exists. split; intros (x & X & E).
  - apply filter_In in X as [X C]. apply andb_true_iff in C as [C _]. exists x. split; [exact X|]. now rewrite C, E.
  - apply andb_true_iff in E as [C E]. exists x. split; [|exact E]. apply filter_In. split; [exact X|]. apply Z.eqb_eq in E. rewrite <- E, C, Tr. reflexivity.
Qed.
Lemma find_under (c : row -> bool) s d p l (b : bool) : (forall r, at_key s d p r = true -> c r = b) -> find (at_key s d p) (filter c l) = if b then find (at_key s d p) l else None.
Proof.
  intro E. induction l as [|a l IH]; [now destruct b|]. cbn [filter find]. destruct (at_key s d p a) eqn:K.
  - rewrite (E a K). destruct b; [cbn [find]; now rewrite K|exact IH].
  - destruct (c a); [cbn [find]; rewrite K|]; exact IH.
Qed.
Lemma find_dropped l s d p : Forall (fun r => diag r = Some g) l -> find (at_key s d p) (drop_duplicates l) = find (at_key s d p) (rev l).
Proof. intro D. rewrite find_hd, dropped_find by exact D. now destruct (find _ (rev l)). Qed.
Lemma forecast_cell s d p : both s = true -> truth_at d = true -> find (at_key s d p) (fst m) = find (at_key s d p) (rev f).
Proof. intros B T. rewrite matched_forecasts, (find_under _ s d p _ true); [now apply find_dropped|]. intros r K. apply at_key_iff in K as (<- & <- & _). now rewrite B, T. Qed.
Lemma truth_cell s d p : both s = true -> forecast_at d = true -> truth_at d = true -> find (at_key s d p) (snd m) = find (at_key s d p) (rev t).
Proof. intros B T U. rewrite matched_truths, (find_under _ s d p _ true); [now apply find_dropped|]. intros r K. apply at_key_iff in K as (<- & <- & _). now rewrite B, T, U. Qed.
Lemma forecast_diag : Forall (fun r => diag r = Some g) (fst m).
Proof. rewrite matched_forecasts. apply Forall_forall. intros r I'. apply filter_In in I' as [I' _]. apply dropped_in in I'. rewrite Forall_forall in Df. now apply Df. Qed.
Lemma truth_diag : Forall (fun r => diag r = Some g) (snd m).
Proof. rewrite matched_truths. apply Forall_forall. intros r I'. apply filter_In in I' as [I' _]. apply dropped_in in I'. rewrite Forall_forall in Dt. now apply Dt. Qed.
Lemma forecast_unrepeated : repeated (fst m) = false.
Proof. apply not_repeated; [exact forecast_diag|]. rewrite matched_forecasts. apply pairs_filter, dropped_pairs. Qed.
Lemma truth_unrepeated : repeated (snd m) = false.
Proof. apply not_repeated; [exact truth_diag|]. rewrite matched_truths. apply pairs_filter, dropped_pairs. Qed.
(** A key is matched if a row is about it. *)
Lemma forecast_in s d p : (exists r, In r (fst m) /\ at_key s d p r = true) <-> both s = true /\ truth_at d = true /\ exists r, In r f /\ at_key s d p r = true.
Proof.
  split.
  - intros (r & I' & K). rewrite matched_forecasts in I'. apply filter_In in I' as [I' B]. apply andb_true_iff in B as [B T]. pose proof K as K'. apply at_key_iff in K' as (-> & -> & _). split; [exact B|]. split; [exact T|]. exists r. split; [now apply dropped_in|exact K].
  - intros (B & T & r & I' & K). destruct (find (at_key s d p) (fst m)) as [q|] eqn:E; [apply find_some in E; eauto|]. rewrite forecast_cell in E by assumption. apply in_rev in I'. rewrite (find_none _ _ E r I') in K. discriminate.
Qed.
Lemma truth_in s d p : (exists r, In r (snd m) /\ at_key s d p r = true) <-> both s = true /\ forecast_at d = true /\ truth_at d = true /\ exists r, In r t /\ at_key s d p r = true.
Proof.
  split.
  - intros (r & I' & K). rewrite matched_truths in I'. apply filter_In in I' as [I' B]. apply andb_true_iff in B as [B T]. apply andb_true_iff in T as [T U]. pose proof K as K'. apply at_key_iff in K' as (-> & -> & _). split; [exact B|]. split; [exact T|]. split; [exact U|]. exists r. split; [now apply dropped_in|exact K].
  - intros (B & T & U & r & I' & K). destruct (find (at_key s d p) (snd m)) as [q|] eqn:E; [apply find_some in E; eauto|]. rewrite truth_cell in E by assumption. apply in_rev in I'. rewrite (find_none _ _ E r I') in K. discriminate.
Qed.
End match_.

(** ** Equalities *)
Record equiv {A} (e : A -> A -> bool) : Prop := { e_refl : forall a, e a a = true; e_sym : forall a b, e a b = true -> e b a = true; e_trans : forall a b c, e a b = true -> e b c = true -> e a c = true }.
Lemma equiv_cmp {A} (c : A -> A -> comparison) : good c -> equiv (fun a b => match c a b with Eq => true | _ => false end).
Proof.
  intros [X Y Z]. split.
  - intro a. pose proof (X a a) as H. destruct (c a a); try reflexivity; discriminate.
  - intros a b. rewrite (X a b). destruct (c b a); cbn; congruence.
  - intros a b d. destruct (c a b) eqn:E; try discriminate. now rewrite (Y a b d E).
Qed.
Lemma equiv_oq : equiv oq_eqb.
Proof. split; [intros [a|]; cbn; [apply Qeqb_refl|reflexivity]|intros [a|] [b|]; cbn; auto; now rewrite Qeqb_sym|intros [a|] [b|] [c|]; cbn; auto; try discriminate; apply Qeqb_trans]. Qed.
Lemma equiv_text : equiv text_eqb.
Proof. unfold text_eqb. apply (equiv_cmp text_cmp good_text). Qed.
Lemma equiv_oz : equiv oz_eqb.
Proof. split; [intros [a|]; cbn; [apply Z.eqb_refl|reflexivity]|intros [a|] [b|]; cbn; auto; now rewrite Z.eqb_sym|intros [a|] [b|] [c|]; cbn; auto; try discriminate; rewrite !Z.eqb_eq; congruence]. Qed.
Lemma equiv_and {A} (e f : A -> A -> bool) : equiv e -> equiv f -> equiv (fun a b => e a b && f a b).
Proof. intros E F. split; [intro a; now rewrite (e_refl e E), (e_refl f F)|intros a b; rewrite !andb_true_iff; intros [X Y]; split; [now apply (e_sym e E)|now apply (e_sym f F)]|intros a b c; rewrite !andb_true_iff; intros [X Y] [X' Y']; split; [exact (e_trans e E a b c X X')|exact (e_trans f F a b c Y Y')]]. Qed.
Lemma equiv_on {A B} (h : A -> B) (e : B -> B -> bool) : equiv e -> equiv (fun a b => e (h a) (h b)).
Proof. intros [X Y Z]. split; eauto. Qed.
Lemma equiv_string : equiv String.eqb.
Proof. split; [apply String.eqb_refl|intros a b; rewrite !String.eqb_eq; congruence|intros a b c; rewrite !String.eqb_eq; congruence]. Qed.
Lemma equiv_Z : equiv Z.eqb.
Proof. split; [apply Z.eqb_refl|intros a b; rewrite !Z.eqb_eq; congruence|intros a b c; rewrite !Z.eqb_eq; congruence]. Qed.
Lemma equiv_Q : equiv Qeq_bool.
Proof. split; [apply Qeqb_refl|intros a b; now rewrite Qeqb_sym|apply Qeqb_trans]. Qed.
Lemma equiv_place : equiv place_eqb.
Proof. unfold place_eqb. apply (equiv_and (fun a b : place => oq_eqb (fst (fst a)) (fst (fst b)) && oq_eqb (snd (fst a)) (snd (fst b)))); [|apply (equiv_on (fun a : place => snd a) _ equiv_oq)]. apply (equiv_and (fun a b : place => oq_eqb (fst (fst a)) (fst (fst b)))); [apply (equiv_on (fun a : place => fst (fst a)) _ equiv_oq)|apply (equiv_on (fun a : place => snd (fst a)) _ equiv_oq)]. Qed.
Definition same_statics (a b : statics) : bool := place_eqb (st_lat a, st_lon a, st_alt a) (st_lat b, st_lon b, st_alt b) && text_eqb (st_diag a) (st_diag b) && oz_eqb (st_period a) (st_period b) && oq_eqb (st_height a) (st_height b) && text_eqb (st_name a) (st_name b) && text_eqb (st_units a) (st_units b).
Lemma statics_same a b : statics_eqb a b = same_statics a b.
Proof. reflexivity. Qed.
Lemma equiv_statics : equiv statics_eqb.
Proof.
  change (equiv same_statics).
  exact (equiv_and _ _ (equiv_and _ _ (equiv_and _ _ (equiv_and _ _ (equiv_and _ _ (equiv_on (fun a => (st_lat a, st_lon a, st_alt a)) _ equiv_place) (equiv_on st_diag _ equiv_text)) (equiv_on st_period _ equiv_oz)) (equiv_on st_height _ equiv_oq)) (equiv_on st_name _ equiv_text)) (equiv_on st_units _ equiv_text)).
Qed.
Lemma equiv_subset : equiv subset_eqb.
Proof. unfold subset_eqb. apply (equiv_and (fun a b => String.eqb (r_wmo a) (r_wmo b) && (r_time a =? r_time b)%Z)); [|apply (equiv_on r_statics _ equiv_statics)]. apply (equiv_and (fun a b => String.eqb (r_wmo a) (r_wmo b))); [apply (equiv_on r_wmo _ equiv_string)|apply (equiv_on r_time _ equiv_Z)]. Qed.
Lemma equiv_sites : equiv sites_eqb.
Proof.
  split.
  - induction a as [|x a IH]; cbn; [reflexivity|]. now rewrite String.eqb_refl, (e_refl _ equiv_place), IH.
  - induction a as [|x a IH]; intros [|y b]; cbn; auto. rewrite !andb_true_iff. intros [[A B] C]. split; [split|now apply IH]; [now rewrite String.eqb_sym|now apply (e_sym _ equiv_place)].
  - induction a as [|x a IH]; intros [|y b] [|z c]; cbn; auto; try discriminate. rewrite !andb_true_iff. intros [[A B] C] [[A' B'] C']. split; [split|exact (IH b c C C')]; [apply String.eqb_eq in A, A'; rewrite A, A'; apply String.eqb_refl|exact (e_trans _ equiv_place _ _ _ B B')].
Qed.
Lemma equiv_spot : equiv mergeable.
Proof. unfold mergeable. apply (equiv_and (fun a b => sites_eqb (sp_sites a) (sp_sites b) && text_eqb (sp_name a) (sp_name b))); [|apply (equiv_on sp_units _ equiv_text)]. apply (equiv_and (fun a b => sites_eqb (sp_sites a) (sp_sites b))); [apply (equiv_on sp_sites _ equiv_sites)|apply (equiv_on sp_name _ equiv_text)]. Qed.
Lemma sites_at a b x : sites_eqb a b = true -> In x a -> exists y, In y b /\ fst x = fst y /\ place_eqb (snd x) (snd y) = true.
Proof. revert b. induction a as [|z a IH]; intros [|w b]; cbn; try discriminate; [intros _ []|]. rewrite !andb_true_iff. intros [[A B] C] [<-|I']; [exists w; split; [now left|]; split; [now apply String.eqb_eq|exact B]|]. destruct (IH b C I') as (y & Y & E). exists y. split; [now right|exact E]. Qed.
Lemma one_value_all {A} (e : A -> A -> bool) l : equiv e -> (one_value e l = true <-> forall x y, In x l -> In y l -> e x y = true).
Proof.
  intro E. unfold one_value. rewrite Nat.leb_le. split.
  - intros L x y X Y. destruct (unique_covers e x l (e_refl e E) (e_trans e E) X) as (a & A1 & A2). destruct (unique_covers e y l (e_refl e E) (e_trans e E) Y) as (b & B1 & B2).
    assert (a = b). { destruct (unique e l) as [|c [|d r]]; [destruct A1| |cbn in L; lia]. destruct A1 as [<-|[]], B1 as [<-|[]]. reflexivity. } subst b. apply (e_trans e E x a y); [now apply (e_sym e E)|exact B2].
  - intro H. pose proof (unique_pairs e l) as P. destruct (unique e l) as [|c [|d r]] eqn:U; cbn; try lia. exfalso. inversion P as [|? ? F _]; subst. inversion F as [|? ? N _]; subst. rewrite H in N; [discriminate| |]; apply (unique_in e); rewrite U; cbn; auto.
Qed.
Lemma mapM_check {A B} (c : A -> bool) (h : A -> B) e l r : mapM (fun d => if c d then Ok (h d) else Err e) l = Ok r <-> r = map h l /\ forall d, In d l -> c d = true.
Proof.
  revert r. induction l as [|a l IH]; intro r; cbn [mapM map].
  - split; [intro H; injection H as <-; split; [reflexivity|intros d []]|intros [-> _]; reflexivity].
  - destruct (c a) eqn:Ca; cbn [bind].
    + destruct (mapM _ l) as [r'|] eqn:M; cbn [bind].
      * destruct (proj1 (IH r') eq_refl) as [-> C]. split; [intro H; injection H as <-; split; [reflexivity|intros d [<-|I']; auto]|intros [-> _]; reflexivity].
      * split; [discriminate|]. intros [_ C]. assert (X : Err e0 = Ok (map h l)) by (apply IH; split; [reflexivity|intros d D; apply C; now right]). discriminate.
    + split; [discriminate|]. intros [_ C]. rewrite C in Ca by now left. discriminate.
Qed.
Lemma in_rows_core l r : In (core r) (map core l) -> exists q, In q l /\ core q = core r.
Proof. intro I'. apply in_map_iff in I' as (q & E & Q1). eauto. Qed.
Lemma qsort_strict l : ForallOrdPairs (fun x y => Qeq_bool x y = false) l -> qssorted (qsort l).
Proof.
  intro P. assert (P' : ForallOrdPairs (fun x y => Qeq_bool x y = false) (qsort l)) by (apply (pairs_perm _ l); [intros x y; now rewrite Qeqb_sym|apply qsort_perm|exact P]). pose proof (qsort_sorted l) as So. unfold qssorted. clear P. induction So as [|a m So IH F]; [constructor|]. inversion P' as [|? ? P1 P2]; subst. constructor; [now apply IH|]. rewrite Forall_forall in *. intros y Y. specialize (F y Y). specialize (P1 y Y). apply Qle_lteq in F as [F|F]; [exact F|]. apply Qeqb_eq in F. congruence.
Qed.
