(** C97: rainforest calibration (improver/calibration/rainforest_calibration.py). *)
From Coq Require Import Ascii NArith.
From Verif Require Import Base Interp Proofs_Interp Proofs_Blending Model_Extract Model_Manip Model_Rainforests Proofs_Temporal.
Local Open Scope Q_scope.

(** * Specification *)
Definition non_increasing (l : list Q) : Prop := forall i j, (i <= j < length l)%nat -> nth j l 0 <= nth i l 0.
Definition within (lo hi : Q) (l : list Q) : Prop := Forall (fun x => lo <= x <= hi) l.

(** * The monotone probabilities *)
Section running.
Variable op : Q -> Q -> Q.
Variable rel : Q -> Q -> Prop.
Hypothesis rel_trans : forall a b c, rel a b -> rel b c -> rel a c.
Hypothesis op_l : forall a b, rel (op a b) a.
Hypothesis op_r : forall a b, rel (op a b) b.
Hypothesis op_one : forall a b, op a b == a \/ op a b == b.
Hypothesis rel_refl : forall a, rel a a.
Lemma accumulate_spec l : forall m i, (i < length l)%nat ->
  rel (nth i (accumulate op m l) 0) m /\ (forall k, (k <= i)%nat -> rel (nth i (accumulate op m l) 0) (nth k l 0)) /\
  (nth i (accumulate op m l) 0 == m \/ exists k, (k <= i)%nat /\ nth i (accumulate op m l) 0 == nth k l 0).
Proof.
  induction l as [|x l IH]; intros m i Hi; cbn [length] in Hi; [lia|]. destruct i as [|i]; cbn [accumulate nth].
  - split; [apply op_l|]. split; [intros k Hk; replace k with 0%nat by lia; apply op_r|]. destruct (op_one m x) as [E|E]; [left; exact E|right; exists 0%nat; split; [lia|exact E]].
  - destruct (IH (op m x) i ltac:(lia)) as (A & B & C). split; [eapply rel_trans; [exact A|apply op_l]|]. split.
    + intros [|k] Hk; [eapply rel_trans; [exact A|apply op_r]|apply B; lia].
    + destruct C as [C|(k & Hk & C)]; [|right; exists (S k); split; [lia|exact C]]. destruct (op_one m x) as [E|E]; [left; rewrite C; exact E|right; exists 0%nat; split; [lia|rewrite C; exact E]].
Qed.
Lemma accumulate_length l : forall m, length (accumulate op m l) = length l.
Proof. induction l as [|x l IH]; intro m; cbn; [reflexivity|f_equal; apply IH]. Qed.
Lemma running_length l : length (running op l) = length l.
Proof. destruct l; cbn; [reflexivity|f_equal; apply accumulate_length]. Qed.
Lemma running_spec l i : (i < length l)%nat ->
  (forall k, (k <= i)%nat -> rel (nth i (running op l) 0) (nth k l 0)) /\ exists k, (k <= i)%nat /\ nth i (running op l) 0 == nth k l 0.
Proof.
  destruct l as [|x l]; cbn [length]; [lia|]. intro Hi. destruct i as [|i]; cbn [running nth].
  - split; [intros k Hk; replace k with 0%nat by lia; apply rel_refl|exists 0%nat; split; [lia|reflexivity]].
  - destruct (accumulate_spec l x i ltac:(lia)) as (A & B & C). split; [intros [|k] Hk; [exact A|apply B; lia]|].
    destruct C as [C|(k & Hk & C)]; [exists 0%nat|exists (S k)]; (split; [lia|exact C]).
Qed.
End running.
Lemma lower_spec l i : (i < length l)%nat -> (forall k, (k <= i)%nat -> nth i (running Qmin l) 0 <= nth k l 0) /\ exists k, (k <= i)%nat /\ nth i (running Qmin l) 0 == nth k l 0.
Proof.
  apply (running_spec Qmin Qle); try (intros; qmm; lra).
Qed.
Lemma upper_spec l i : (i < length l)%nat ->
  (forall k, (i <= k < length l)%nat -> nth k l 0 <= nth i (rev (running Qmax (rev l))) 0) /\ exists k, (i <= k < length l)%nat /\ nth i (rev (running Qmax (rev l))) 0 == nth k l 0.
Proof.
  intro Hi. rewrite rev_nth by (rewrite running_length, rev_length; exact Hi). rewrite running_length, rev_length.
  destruct (running_spec Qmax (fun a b => b <= a)) with (l := rev l) (i := (length l - S i)%nat) as (A & k & Hk & B); try (intros; qmm; lra).
  - rewrite rev_length. lia.
  - split.
    + intros j Hj. specialize (A (length l - S j)%nat ltac:(lia)). cbn beta in A. rewrite rev_nth in A by lia. replace (length l - S (length l - S j))%nat with j in A by lia. exact A.
    + exists (length l - S k)%nat. split; [lia|]. rewrite B, rev_nth by lia. reflexivity.
Qed.
Lemma make_length l : length (make_decreasing l) = length l.
Proof. unfold make_decreasing. rewrite map_length, combine_length, rev_length, !running_length, rev_length. apply Nat.min_id. Qed.
Lemma make_nth l i : (i < length l)%nat -> nth i (make_decreasing l) 0 = (1 # 2) * (nth i (rev (running Qmax (rev l))) 0 + nth i (running Qmin l) 0).
Proof.
  intro Hi. unfold make_decreasing. rewrite nth_map_lt with (d := (0, 0)) by (rewrite combine_length, rev_length, !running_length, rev_length; lia).
  rewrite combine_nth by (rewrite rev_length, !running_length, rev_length; reflexivity). reflexivity.
Qed.
Theorem C97_made_monotone l : let d := make_decreasing l in
  length d = length l /\ non_increasing d /\ (forall lo hi, within lo hi l -> within lo hi d) /\ (non_increasing l -> Forall2 Qeq d l) /\
  (forall q e, non_increasing q -> length q = length l -> (forall i, (i < length l)%nat -> Qabs (nth i l 0 - nth i q 0) <= e) -> forall i, (i < length l)%nat -> Qabs (nth i l 0 - nth i d 0) <= e).
Proof.
  intro d. assert (L : length d = length l) by apply make_length. assert (V : forall i, (i < length l)%nat -> exists j k, (i <= j < length l)%nat /\ (k <= i)%nat /\ nth i d 0 == (1 # 2) * (nth j l 0 + nth k l 0) /\
    (forall m, (i <= m < length l)%nat -> nth m l 0 <= nth j l 0) /\ (forall m, (m <= i)%nat -> nth k l 0 <= nth m l 0)).
  { intros i Hi. destruct (upper_spec l i Hi) as (A & j & Hj & EA). destruct (lower_spec l i Hi) as (B & k & Hk & EB). exists j, k. split; [exact Hj|]. split; [exact Hk|]. split; [unfold d; rewrite make_nth, EA, EB by exact Hi; reflexivity|].
    split; intros m Hm; [specialize (A m Hm); rewrite EA in A; exact A|specialize (B m Hm); rewrite EB in B; exact B]. }
  split; [exact L|]. split; [|split; [|split]].
  - intros i i' Hi. rewrite L in Hi. destruct (V i ltac:(lia)) as (j & k & Hj & Hk & E & M & N). destruct (V i' ltac:(lia)) as (j' & k' & Hj' & Hk' & E' & M' & N').
    rewrite E, E'. pose proof (M j' ltac:(lia)). pose proof (N' k ltac:(lia)). lra.
  - intros lo hi W. unfold within in *. rewrite Forall_forall in *. intros x X. apply (In_nth _ _ 0) in X as (i & Hi & <-). rewrite L in Hi. destruct (V i Hi) as (j & k & Hj & Hk & E & _).
    pose proof (W (nth j l 0) ltac:(apply nth_In; lia)). pose proof (W (nth k l 0) ltac:(apply nth_In; lia)). rewrite E. lra.
  - intro Hd. apply (Forall2_Qeq_of_nth _ _ 0); [exact L|]. intros i Hi. rewrite L in Hi. destruct (V i Hi) as (j & k & Hj & Hk & E & M & N). pose proof (Hd i j Hj). pose proof (Hd k i ltac:(lia)). pose proof (M i ltac:(lia)). pose proof (N i ltac:(lia)). rewrite E. lra.
  - intros q e Hq Lq C i Hi. destruct (V i Hi) as (j & k & Hj & Hk & E & M & N). pose proof (M i ltac:(lia)). pose proof (N i ltac:(lia)). pose proof (Hq k j ltac:(lia)) as Q1.
    pose proof (C j ltac:(lia)) as C1. pose proof (C k ltac:(lia)) as C2. apply Qabs_Qle_condition in C1, C2. apply Qabs_Qle_condition. rewrite E. lra.
Qed.

(** * Strings in order *)
Lemma ascii_compare_eq a b : Ascii.compare a b = Eq -> a = b.
Proof. intro H. apply Ascii.compare_eq_iff. exact H. Qed.
Lemma str_compare_trans a : forall b c, String.compare a b = Lt -> String.compare b c = Lt -> String.compare a c = Lt.
Proof.
  induction a as [|x a IH]; intros [|y b] [|z c]; cbn; try discriminate; try reflexivity. intros A B.
  destruct (Ascii.compare x y) eqn:E; try discriminate.
  - apply ascii_compare_eq in E. subst y. destruct (Ascii.compare x z); try discriminate; [eapply IH; eassumption|reflexivity].
  - destruct (Ascii.compare y z) eqn:F; try discriminate.
    + apply ascii_compare_eq in F. subst z. rewrite E. reflexivity.
    + unfold Ascii.compare in *. rewrite N.compare_lt_iff in E, F. assert (G : (N_of_ascii x ?= N_of_ascii z)%N = Lt) by (apply N.compare_lt_iff; lia). rewrite G. reflexivity.
Qed.
Lemma str_refl a : String.compare a a = Eq.
Proof. pose proof (String.compare_antisym a a) as H. destruct (String.compare a a); try reflexivity; discriminate. Qed.
Definition str_lt (a b : string) : Prop := String.compare a b = Lt.
Lemma str_leb_cases a b : String.leb a b = true <-> str_lt a b \/ a = b.
Proof.
  unfold String.leb, str_lt. destruct (String.compare a b) eqn:E; split; try discriminate; auto.
  - intros _. right. apply String.compare_eq_iff. exact E.
  - intros [X|X]; [discriminate|]. subst b. rewrite str_refl in E. discriminate.
Qed.
Lemma str_leb_total a b : String.leb a b = false -> String.leb b a = true.
Proof. unfold String.leb. rewrite (String.compare_antisym a b). destruct (String.compare b a); cbn; try discriminate; reflexivity. Qed.
Lemma str_lt_irrefl a : ~ str_lt a a.
Proof. unfold str_lt. rewrite str_refl. discriminate. Qed.
Lemma str_leb_trans a b c : String.leb a b = true -> String.leb b c = true -> String.leb a c = true.
Proof. rewrite !str_leb_cases. intros [A|A] [B|B]; subst; auto. left. eapply str_compare_trans; eassumption. Qed.
Lemma sorted_names l : StronglySorted (fun a b => String.leb a b = true) (isort String.leb l).
Proof. apply isort_sorted; [auto|apply str_leb_total|apply str_leb_trans]. Qed.
(** A sorted rearrangement is unique if what is before and after is equal. *)
Lemma sorted_unique_perm {A} (le lt : A -> A -> Prop) : (forall a b, lt a b -> le b a -> False) -> forall l m, StronglySorted lt l -> Permutation l m -> StronglySorted le m -> m = l.
Proof.
  intro Anti. induction l as [|x l IH]; intros m So P Sm; [apply Permutation_nil in P; exact P|].
  inversion So as [|? ? So' F]; subst. destruct m as [|y m]; [apply Permutation_sym, Permutation_nil in P; discriminate|]. inversion Sm as [|? ? Sm' G]; subst.
  rewrite Forall_forall in F, G. assert (E : y = x).
  { assert (Iy : In y (x :: l)) by (apply (Permutation_in _ (Permutation_sym P)); left; reflexivity). assert (Ix : In x (y :: m)) by (apply (Permutation_in _ P); left; reflexivity).
    destruct Iy as [E|Iy]; [symmetry; exact E|]. destruct Ix as [E|Ix]; [exact E|]. exfalso. apply (Anti x y); [apply F; exact Iy|apply G; exact Ix]. }
  subst y. f_equal. apply IH; [assumption|apply Permutation_cons_inv in P; exact P|assumption].
Qed.
Lemma names_sorted ordered names : StronglySorted str_lt ordered -> Permutation names ordered -> isort String.leb names = ordered.
Proof.
  intros So P. apply (sorted_unique_perm (fun a b => String.leb a b = true) str_lt); [|exact So|rewrite <- P; apply isort_perm|apply sorted_names].
  intros a b L G. apply str_leb_cases in G as [G|G]; [|subst b; apply (str_lt_irrefl a L)]. apply (str_lt_irrefl a). eapply str_compare_trans; eassumption.
Qed.

(** * The rows handed to the trees *)
Definition members (rs : list Z) (vs : list variable) : Prop := (forall v, In v vs -> va_real v = None \/ va_real v = Some rs) /\ ((exists v, In v vs /\ va_real v = Some rs) \/ rs = [0%Z]).
Definition shaped (P : nat) (v : variable) : Prop := length (va_data v) = match va_real v with Some r => (length r * P)%nat | None => P end.
(** The value of a variable for realization number r at point p: the same for all realizations if the variable has none. *)
Definition value_at (P r p : nat) (v : variable) : Q := nth (match va_real v with Some _ => r * P + p | None => p end)%nat (va_data v) 0.
Lemma same_numbers_refl l : same_numbers l l = true.
Proof. induction l as [|x l IH]; cbn; [reflexivity|]. rewrite IH, andb_true_r. apply Qeqb_eq. reflexivity. Qed.
Lemma same_numbers_iff l : forall m, same_numbers l m = true <-> Forall2 Qeq l m.
Proof.
  induction l as [|x l IH]; intros [|y m]; cbn; split; intro H; try discriminate; try (inversion H; fail); try constructor; try reflexivity.
  - apply andb_true_iff in H as [A _]. apply Qeqb_eq. exact A.
  - apply andb_true_iff in H as [_ A]. apply IH. exact A.
  - inversion H; subst. apply andb_true_iff. split; [apply Qeqb_eq; assumption|apply IH; assumption].
Qed.
Lemma dims_eqb_refl d : dims_eqb d d = true.
Proof. unfold dims_eqb. rewrite Nat.eqb_refl. cbn. induction d as [|x d IH]; cbn; [reflexivity|]. rewrite String.eqb_refl, same_numbers_refl. exact IH. Qed.
Lemma zlist_eqb_iff a : forall b, zlist_eqb a b = true <-> a = b.
Proof. induction a as [|x a IH]; intros [|y b]; cbn; split; intro H; try discriminate; try reflexivity; [apply andb_true_iff in H as [A B]; apply Z.eqb_eq in A; apply IH in B; congruence|injection H as -> ->; rewrite Z.eqb_refl; apply IH; reflexivity]. Qed.
Lemma name_put_inv {V} (P : V -> Prop) k v (d : list (string * V)) : P v -> Forall (fun e => P (snd e)) d -> Forall (fun e => P (snd e)) (name_put k v d) /\ name_put k v d <> [].
Proof.
  intros Pv. induction 1 as [|e d He Hd IH]; cbn; [split; [repeat constructor; exact Pv|discriminate]|]. destruct (String.eqb (fst e) k); (split; [|discriminate]); constructor; try assumption. apply IH.
Qed.
Lemma coords_inv rs l : forall d, Forall (fun e => snd e = rs) d -> (forall v, In v l -> va_real v = None \/ va_real v = Some rs) ->
  let d' := fold_left (fun d v => match va_real v with Some r => name_put (va_name v) r d | None => d end) l d in
  Forall (fun e => snd e = rs) d' /\ (d' = [] <-> d = [] /\ forall v, In v l -> va_real v = None).
Proof.
  induction l as [|v l IH]; intros d F H d'; [split; [exact F|split; [intro E; split; [exact E|intros v []]|intros [E _]; exact E]]|].
  unfold d'. cbn [fold_left]. destruct (H v (or_introl eq_refl)) as [E|E]; rewrite E.
  - destruct (IH d F ltac:(intros u U; apply H; right; exact U)) as (A & B). split; [exact A|]. rewrite B. split; intros [X Y]; (split; [exact X|]); intros u U; [destruct U as [<-|U]; [exact E|apply Y; exact U]|apply Y; right; exact U].
  - destruct (name_put_inv (fun r => r = rs) (va_name v) rs d eq_refl F) as (F' & N). destruct (IH _ F' ltac:(intros u U; apply H; right; exact U)) as (A & B). split; [exact A|]. rewrite B. split.
    + intros [X _]. contradiction.
    + intros [_ Y]. specialize (Y v (or_introl eq_refl)). congruence.
Qed.
Lemma align_ok rs features forecast : (forall v, In v features -> va_dims v = va_dims forecast) -> members rs (features ++ [forecast]) -> align features forecast = Ok (map (broadcast rs) features, broadcast rs forecast).
Proof.
  intros D [M X]. unfold align.
  assert (C : forallb (fun v => dims_eqb (va_dims v) (va_dims forecast)) (features ++ [forecast]) = true). { apply forallb_forall. intros v V. apply in_app_or in V as [V|[<-|[]]]; [rewrite (D v V)|]; apply dims_eqb_refl. }
  rewrite C. cbn [negb]. destruct (coords_inv rs (features ++ [forecast]) [] ltac:(constructor) M) as (A & B). unfold realization_coords. set (d' := fold_left _ _ _) in *. destruct d' as [|[n r] others].
  - destruct (proj1 B eq_refl) as [_ N]. destruct X as [(v & V & E)| ->]; [rewrite (N v V) in E; discriminate|reflexivity].
  - inversion A as [|? ? E F]; subst. cbn [snd]. assert (G : forallb (fun e => zlist_eqb (snd e) r) others = true). { apply forallb_forall. intros e I. apply zlist_eqb_iff. rewrite Forall_forall in F. apply F. exact I. }
    rewrite G. reflexivity.
Qed.
Lemma repeat_concat {A} (l : list A) n : length (concat (repeat l n)) = (n * length l)%nat.
Proof. induction n as [|n IH]; cbn; [reflexivity|]. rewrite app_length, IH. reflexivity. Qed.
Lemma nth_repeat_concat {A} (l : list A) d n : forall r p, (r < n)%nat -> (p < length l)%nat -> nth (r * length l + p) (concat (repeat l n)) d = nth p l d.
Proof.
  induction n as [|n IH]; intros r p Hr Hp; [lia|]. cbn [repeat concat]. destruct r as [|r]; [rewrite app_nth1 by (cbn; lia); reflexivity|].
  rewrite app_nth2 by (cbn; lia). replace (S r * length l + p - length l)%nat with (r * length l + p)%nat by (cbn; lia). apply IH; lia.
Qed.
Lemma broadcast_data rs P v : (va_real v = None \/ va_real v = Some rs) -> shaped P v ->
  length (va_data (broadcast rs v)) = (length rs * P)%nat /\ forall r p, (r < length rs)%nat -> (p < P)%nat -> nth (r * P + p) (va_data (broadcast rs v)) 0 = value_at P r p v.
Proof.
  unfold shaped, value_at, broadcast. intros [E|E] S; rewrite E in S |- *; cbn [va_data].
  - split; [rewrite repeat_concat, S; reflexivity|]. intros r p Hr Hp. rewrite <- S. apply nth_repeat_concat; [exact Hr|lia].
  - split; [exact S|]. reflexivity.
Qed.
Lemma broadcast_name rs v : va_name (broadcast rs v) = va_name v. Proof. unfold broadcast. destruct (va_real v); reflexivity. Qed.
Lemma broadcast_real rs v : (va_real v = None \/ va_real v = Some rs) -> va_real (broadcast rs v) = Some rs. Proof. unfold broadcast. intros [E|E]; rewrite E; cbn; auto. Qed.
Lemma filter_other n (l : list variable) : ~ In n (map va_name l) -> filter (fun v => String.eqb (va_name v) n) l = [].
Proof. induction l as [|x l IH]; cbn; [reflexivity|]. intro H. destruct (String.eqb_spec (va_name x) n) as [E|E]; [exfalso; apply H; left; exact E|apply IH; intro X; apply H; right; exact X]. Qed.
Lemma extract_one l : NoDup (map va_name l) -> forall v, In v l -> extract_cube (va_name v) l = Ok v.
Proof.
  intros N v V. unfold extract_cube. assert (E : filter (fun u => String.eqb (va_name u) (va_name v)) l = [v]); [|rewrite E; reflexivity].
  induction l as [|x l IH]; [destruct V|]. cbn in N. inversion N as [|? ? N1 N2]; subst. cbn [filter]. destruct V as [->|V].
  - rewrite String.eqb_refl. f_equal. apply filter_other. exact N1.
  - destruct (String.eqb_spec (va_name x) (va_name v)) as [E|E]; [|apply IH; assumption]. exfalso. apply N1. rewrite E. apply in_map. exact V.
Qed.
Lemma mapM_names l : forall o, (forall v, In v o -> extract_cube (va_name v) l = Ok v) -> mapM (fun n => extract_cube n l) (map va_name o) = Ok o.
Proof. induction o as [|v o IH]; intro H; cbn; [reflexivity|]. rewrite (H v (or_introl eq_refl)). cbn. rewrite IH; [reflexivity|]. intros u U. apply H. right. exact U. Qed.
Lemma strict_nodup l : StronglySorted str_lt l -> NoDup l.
Proof. induction 1 as [|x l So IH F]; constructor; [|exact IH]. intro X. rewrite Forall_forall in F. apply (str_lt_irrefl x), F, X. Qed.
Lemma array_ok rs P features ordered : Permutation features ordered -> StronglySorted str_lt (map va_name ordered) -> ordered <> [] -> (forall v, In v features -> (va_real v = None \/ va_real v = Some rs) /\ shaped P v) ->
  exists rows, features_array (map (broadcast rs) features) = Ok rows /\ length rows = (length rs * P)%nat /\
    forall r p, (r < length rs)%nat -> (p < P)%nat -> nth (r * P + p) rows [] = map (value_at P r p) ordered.
Proof.
  intros Pm So NE G. assert (Nm : forall l, map va_name (map (broadcast rs) l) = map va_name l) by (intro l; rewrite map_map; apply map_ext; intro; apply broadcast_name).
  unfold features_array. rewrite Nm, (names_sorted (map va_name ordered)); [|exact So|apply Permutation_map; exact Pm]. rewrite <- (Nm ordered), mapM_names.
  - cbn [bind]. assert (L : forall d, In d (map va_data (map (broadcast rs) ordered)) -> length d = (length rs * P)%nat).
    { intros d I. apply in_map_iff in I as (u & <- & U). apply in_map_iff in U as (v & <- & V). apply (Permutation_in _ (Permutation_sym Pm)) in V. destruct (G v V) as [R S]. apply broadcast_data; assumption. }
    destruct ordered as [|v o]; [contradiction|]. cbn [map] in L |- *. assert (C : forallb (fun d => (length d =? length (va_data (broadcast rs v)))%nat) (map va_data (map (broadcast rs) o)) = true).
    { apply forallb_forall. intros d I. apply Nat.eqb_eq. rewrite (L d (or_intror I)). symmetry. apply L. left. reflexivity. }
    rewrite C. eexists. split; [reflexivity|]. rewrite (L _ (or_introl eq_refl)). unfold rows_of. split; [rewrite map_length, seq_length; reflexivity|].
    intros r p Hr Hp. rewrite nth_map_seq by nia. change (va_data (broadcast rs v) :: map va_data (map (broadcast rs) o)) with (map va_data (map (broadcast rs) (v :: o))). rewrite !map_map. change (value_at P r p v :: map (value_at P r p) o) with (map (value_at P r p) (v :: o)).
    apply map_ext_in. intros u U. apply (Permutation_in _ (Permutation_sym Pm)) in U. destruct (G u U) as [R S]. apply broadcast_data; assumption.
  - intros u U. apply extract_one.
    + rewrite Nm. apply (Permutation_NoDup (l := map va_name ordered)); [apply Permutation_map, Permutation_sym; exact Pm|apply strict_nodup; exact So].
    + apply in_map_iff in U as (v & <- & V). apply in_map. apply (Permutation_in _ (Permutation_sym Pm)). exact V.
Qed.

(** * The model of the lead time *)
Lemma nearest_spec t l : forall b, qsorted (b :: l) -> In (nearest b t l) (b :: l) /\ forall x, In x (b :: l) -> Qabs (nearest b t l - t) <= Qabs (x - t) /\ (Qabs (nearest b t l - t) == Qabs (x - t) -> nearest b t l <= x).
Proof.
  induction l as [|y l IH]; intros b So; cbn [nearest]; [split; [left; reflexivity|intros x [<-|[]]; split; [lra|lra]]|].
  inversion So as [|? ? So1 F]; subst. inversion So1 as [|? ? So2 F2]; subst. inversion F as [|? ? By Fl]; subst. destruct (Qltb_spec (Qabs (y - t)) (Qabs (b - t))) as [L|L].
  - destruct (IH y So1) as (A & B). split; [right; exact A|]. intros x [<-|X]; [|apply B; exact X]. destruct (B y (or_introl eq_refl)) as [C _]. split; [lra|intro; lra].
  - assert (So' : qsorted (b :: l)) by (constructor; assumption). destruct (IH b So') as (A & B). split; [destruct A as [A|A]; [left; exact A|right; right; exact A]|].
    intros x [<-|[<-|X]]; [apply B; left; reflexivity| |apply B; right; exact X]. destruct (B b (or_introl eq_refl)) as [C D]. split; [lra|]. intro E. assert (Qabs (nearest b t l - t) == Qabs (b - t)) by lra. specialize (D H). lra.
Qed.
(** The entry of the lead time nearest to t, the shorter of two equally near ones. *)
Definition chosen (inst : config) (t : Q) (e : Q * list (Q * forest)) : Prop :=
  In e inst /\ forall e', In e' inst -> Qabs (fst e - t) <= Qabs (fst e' - t) /\ (Qabs (fst e - t) == Qabs (fst e' - t) -> fst e <= fst e').
Lemma find_key {V} (l : list (Q * V)) k : (exists e, In e l /\ fst e == k) -> exists e, find (fun e => fst e =? k) l = Some e /\ In e l /\ fst e == k.
Proof.
  intros (e & I & E). destruct (find (fun e => fst e =? k) l) as [f|] eqn:F; [apply find_some in F as [A B]; exists f; repeat split; trivial; apply Qeqb_eq; exact B|].
  exfalso. pose proof (find_none _ _ F e I) as G. cbn in G. apply Qeqb_eq in E. rewrite E in G. discriminate.
Qed.
Lemma models_at_ok inst t : inst <> [] -> qsorted (map fst inst) -> exists e, chosen inst t e /\ models_at inst t = Ok (snd e).
Proof.
  intros NE So. unfold models_at. destruct (find (fun e => fst e =? t) inst) as [e|] eqn:F.
  - apply find_some in F as [A B]. apply Qeqb_eq in B. exists e. split; [|reflexivity]. split; [exact A|]. intros e' I. assert (Z : Qabs (fst e - t) == 0) by (assert (X : fst e - t == 0) by lra; rewrite X; reflexivity). rewrite Z. split; [apply Qabs_nonneg|].
    intro E. symmetry in E. assert (X : fst e' - t == 0). { destruct (Qlt_le_dec (fst e' - t) 0) as [L|L]; [rewrite Qabs_neg in E by lra; lra|rewrite Qabs_pos in E by lra; exact E]. } lra.
  - destruct inst as [|e0 r]; [contradiction|]. cbn [map]. cbn [map] in So. destruct (nearest_spec t (map fst r) (fst e0) So) as (A & B).
    assert (K : exists e, In e (e0 :: r) /\ fst e == nearest (fst e0) t (map fst r)). { change (fst e0 :: map fst r) with (map fst (e0 :: r)) in A. apply in_map_iff in A as (e & E & I). exists e. split; [exact I|rewrite E; reflexivity]. }
    destruct (find_key _ _ K) as (e & -> & I & E). exists e. split; [|reflexivity]. split; [exact I|]. intros e' I'. assert (M : In (fst e') (fst e0 :: map fst r)) by (change (In (fst e') (map fst (e0 :: r))); apply in_map; exact I').
    destruct (B _ M) as [C D]. rewrite E. split; [exact C|exact D].
Qed.

(** * Interpolation *)
Definition opp_k (k : list (Q * Q)) : list (Q * Q) := map (fun p => (fst p, - snd p)) k.
Lemma np_from_opp k : forall x0 y0 x, np_from x0 (- y0) (opp_k k) x == - np_from x0 y0 k x.
Proof.
  induction k as [|[x1 y1] k IH]; intros x0 y0 x; cbn [opp_k map fst snd np_from]; [reflexivity|]. fold (opp_k k). destruct (x1 <=? x); [apply IH|]. destruct (x0 =? x); [reflexivity|]. unfold lerp, Qdiv. ring.
Qed.
Lemma np_interp_opp k x : np_interp (opp_k k) x == - np_interp k x.
Proof. destruct k as [|[x0 y0] k]; cbn [opp_k map fst snd np_interp]; [reflexivity|]. fold (opp_k k). destruct (x <? x0); [reflexivity|]. apply np_from_opp. Qed.
Lemma sorted_of_nth l : (forall i j, (i <= j < length l)%nat -> nth i l 0 <= nth j l 0) -> qsorted l.
Proof.
  induction l as [|x l IH]; intro H; constructor.
  - apply IH. intros i j Hi. apply (H (S i) (S j)). cbn. lia.
  - apply Forall_forall. intros y Y. apply (In_nth _ _ 0) in Y as (i & Hi & <-). apply (H 0%nat (S i)). cbn. lia.
Qed.
Lemma np_interp_anti k x x' : non_increasing (map snd k) -> x <= x' -> np_interp k x' <= np_interp k x.
Proof.
  intros N L. assert (So : qsorted (map snd (opp_k k))).
  { apply sorted_of_nth. unfold opp_k. rewrite map_map. cbn [snd]. rewrite map_length. intros i j Hi. rewrite !nth_map_lt with (d := (0, 0)) by lia. cbn.
    specialize (N i j ltac:(rewrite map_length; lia)). rewrite !nth_map_lt with (d := (0, 0)) in N by lia. lra. }
  pose proof (np_interp_mono _ x x' So L) as M. rewrite !np_interp_opp in M. lra.
Qed.
Lemma interp_within numba xp fp x lo hi : length xp = length fp -> fp <> [] -> within lo hi fp -> lo <= interp numba xp fp x <= hi.
Proof.
  intros L NE W. unfold interp. assert (C : combine xp fp <> []) by (destruct xp, fp; try discriminate; contradiction). destruct numba.
  - rewrite fast_at_rec by (symmetry; exact L). apply fast_rec_bounds; [exact C|]. apply (Forall_snd_combine (fun y => lo <= y <= hi)). exact W.
  - apply np_interp_bounds; [exact C|]. apply (Forall_snd_combine (fun y => lo <= y <= hi)). exact W.
Qed.
Lemma interp_np numba xp fp x : length xp = length fp -> spaced xp -> interp numba xp fp x == np_interp (combine xp fp) x.
Proof. intros L So. unfold interp. destruct numba; [|reflexivity]. rewrite fast_at_rec by (symmetry; exact L). apply fast_rec_np. rewrite map_fst_combine by exact L. exact So. Qed.

Lemma first_length lb outs p : length (certain_first lb outs p) = length p.
Proof. unfold certain_first. destruct outs, p; trivial. destruct (isclose _ _); reflexivity. Qed.
Lemma first_nth lb outs p k : nth k (certain_first lb outs p) 0 = nth k p 0 \/ (k = 0%nat /\ nth k (certain_first lb outs p) 0 = 1).
Proof. unfold certain_first. destruct outs, p; auto. destruct (isclose _ _); auto. destruct k; auto. Qed.
Lemma at_length numba lb thr p outs : length p = length thr -> length (at_outputs numba lb thr p outs) = length outs.
Proof. intro L. unfold at_outputs. destruct (Nat.eqb_spec (length thr) (length outs)) as [E|E]; cbn [andb]; [|rewrite make_length, map_length; reflexivity]. destruct (allclose thr outs); [lia|rewrite make_length, map_length; reflexivity]. Qed.
Lemma distribution_ok numba lb thr p outs : length p = length thr -> within 0 1 p -> non_increasing p ->
  length (distribution numba lb thr outs p) = length outs /\ within 0 1 (distribution numba lb thr outs p) /\ non_increasing (distribution numba lb thr outs p).
Proof.
  intros L W N. unfold distribution. assert (L' := at_length numba lb thr p outs L). assert (W' : within 0 1 (at_outputs numba lb thr p outs)).
  { unfold at_outputs. destruct (_ && _); [exact W|]. apply C97_made_monotone. apply Forall_forall. intros x X. apply in_map_iff in X as (o & <- & _). apply interp_within; [cbn; lia|discriminate|constructor; [lra|exact W]]. }
  assert (N' : non_increasing (at_outputs numba lb thr p outs)). { unfold at_outputs. destruct (_ && _); [exact N|]. apply C97_made_monotone. }
  split; [rewrite first_length; exact L'|]. split.
  - apply Forall_forall. intros x X. apply (In_nth _ _ 0) in X as (i & Hi & <-). rewrite first_length in Hi. destruct (first_nth lb outs (at_outputs numba lb thr p outs) i) as [E|[_ E]]; rewrite E; [|lra]. unfold within in W'. rewrite Forall_forall in W'. apply W', nth_In. exact Hi.
  - intros i j Hi. rewrite first_length in Hi. destruct (first_nth lb outs (at_outputs numba lb thr p outs) i) as [E|[Z E]], (first_nth lb outs (at_outputs numba lb thr p outs) j) as [E'|[Z' E']]; rewrite ?E, ?E'; try lra; [apply N'; exact Hi| |].
    + replace i with 0%nat in * by lia. rewrite <- E, <- E'. subst j. lra.
    + unfold within in W'. rewrite Forall_forall in W'. apply W', nth_In. lia.
Qed.
Lemma interpolated_falls numba lb thr p outs : length p = length thr -> within 0 1 p -> non_increasing p -> spaced (lb :: thr) -> qssorted outs -> non_increasing (map (interp numba (lb :: thr) (1 :: p)) outs).
Proof.
  intros L W N So Os i j Hi. rewrite map_length in Hi. rewrite !nth_map_lt with (d := 0) by lia. rewrite !interp_np by (cbn; try lia; exact So). apply np_interp_anti.
  - rewrite map_snd_combine by (cbn; lia). intros a b Hab. cbn [length] in Hab. unfold within in W. rewrite Forall_forall in W. destruct a as [|a], b as [|b]; cbn [nth]; try lra; try lia; [apply W, nth_In; lia|apply N; lia].
  - destruct (Nat.eq_dec i j) as [->|NE]; [lra|]. pose proof (qssorted_nth outs 0 i j Os ltac:(lia)). lra.
Qed.
Lemma distribution_value numba lb thr p outs k : length p = length thr -> within 0 1 p -> non_increasing p -> spaced (lb :: thr) -> qssorted outs -> (length thr = length outs -> allclose thr outs = true -> Forall2 Qeq thr outs) -> (k < length outs)%nat ->
  nth k (distribution numba lb thr outs p) 0 == if (k =? 0)%nat && isclose (nth 0 outs 0) lb then 1 else np_interp ((lb, 1) :: combine thr p) (nth k outs 0).
Proof.
  intros L W N So Os Cl Hk.
  assert (C : nth k (make_decreasing (map (interp numba (lb :: thr) (1 :: p)) outs)) 0 == np_interp ((lb, 1) :: combine thr p) (nth k outs 0)).
  { destruct (C97_made_monotone (map (interp numba (lb :: thr) (1 :: p)) outs)) as (_ & _ & _ & Id & _). rewrite (Forall2_Qeq_nth _ _ k 0 (Id (interpolated_falls numba lb thr p outs L W N So Os))).
    rewrite nth_map_lt with (d := 0) by exact Hk. rewrite interp_np by (cbn; try lia; exact So). reflexivity. }
  assert (B : nth k (at_outputs numba lb thr p outs) 0 == np_interp ((lb, 1) :: combine thr p) (nth k outs 0)).
  { unfold at_outputs. destruct (Nat.eqb_spec (length thr) (length outs)) as [E|E]; cbn [andb]; [destruct (allclose thr outs) eqn:A|exact C]; [|exact C].
    pose proof (Cl E eq_refl) as F. assert (Q1 : nth k outs 0 == nth (S k) (map fst ((lb, 1) :: combine thr p)) 0). { cbn [map nth fst]. rewrite map_fst_combine by lia. symmetry. apply Forall2_Qeq_nth. exact F. }
    assert (Q2 : np_interp ((lb, 1) :: combine thr p) (nth k outs 0) == np_interp ((lb, 1) :: combine thr p) (nth (S k) (map fst ((lb, 1) :: combine thr p)) 0)).
    { cbn [np_interp]. set (a := nth k outs 0) in *. set (b := nth (S k) _ 0) in *. clearbody a b. destruct (Qltb_spec a lb), (Qltb_spec b lb); try lra. apply np_from_comp. exact Q1. }
    rewrite Q2, np_interp_knot; [cbn [map nth snd]; rewrite map_snd_combine by lia; reflexivity| |cbn; rewrite combine_length; lia]. cbn [map fst]. rewrite map_fst_combine by lia. apply spaced_qssorted. exact So. }
  unfold distribution, certain_first. assert (L' := at_length numba lb thr p outs L). destruct outs as [|o outs]; [cbn in Hk; lia|]. destruct (at_outputs numba lb thr p (o :: outs)) as [|q r]; [discriminate|]. cbn [nth] in *. destruct (isclose o lb); [|rewrite andb_false_r; exact B].
  destruct k as [|k]; cbn [Nat.eqb andb nth]; [reflexivity|exact B].
Qed.

(** * The plugin *)
Definition apart {V} (a b : Q * V) : Prop := ~ fst a == fst b.
Lemma sym_sorted_perm {A} (R : A -> A -> Prop) : (forall a b, R a b -> R b a) -> forall l m, Permutation l m -> StronglySorted R l -> StronglySorted R m.
Proof.
  intro Sy. induction 1 as [|x l m P IH|x y l|l m n P IH P' IH']; intro H; [constructor| | |auto].
  - inversion H as [|? ? H1 H2]; subst. constructor; [apply IH; exact H1|]. rewrite Forall_forall in *. intros z Z. apply H2. apply (Permutation_in _ (Permutation_sym P)). exact Z.
  - inversion H as [|? ? H1 H2]; subst. inversion H1 as [|? ? H3 H4]; subst. inversion H2; subst. constructor; [constructor; assumption|]. constructor; [apply Sy; assumption|assumption].
Qed.
Lemma dict_put_in {V} k (v : V) d e : In e (dict_put k v d) -> (fst e == k) \/ In e d.
Proof.
  induction d as [|f d IH]; cbn; [intros [<-|[]]; left; reflexivity|]. destruct (Qeqb_spec (fst f) k) as [E|E]; cbn; [intros [<-|I]; [left; exact E|right; right; exact I]|intros [<-|I]; [right; left; reflexivity|destruct (IH I) as [X|X]; [left; exact X|right; right; exact X]]].
Qed.
Lemma dict_put_apart {V} k (v : V) d : StronglySorted apart d -> StronglySorted apart (dict_put k v d).
Proof.
  induction 1 as [|e d So IH F]; cbn; [repeat constructor|]. destruct (Qeqb_spec (fst e) k) as [E|E]; constructor; try assumption. apply Forall_forall. intros f I. rewrite Forall_forall in F. destruct (dict_put_in _ _ _ _ I) as [X|X]; [unfold apart; intro Y; apply E; rewrite Y; exact X|apply F; exact X].
Qed.
Lemma as_dict_apart {V} (l : list (Q * V)) : StronglySorted apart (as_dict l).
Proof. unfold as_dict. assert (H : StronglySorted apart (@nil (Q * V))) by constructor. revert H. generalize (@nil (Q * V)). induction l as [|e l IH]; intros d H; cbn; [exact H|]. apply IH, dict_put_apart, H. Qed.
Lemma sorted_items_strict {V} (l : list (Q * V)) : qssorted (map fst (sorted_items l)).
Proof.
  assert (A : StronglySorted apart (sorted_items l)) by (apply (sym_sorted_perm apart) with (l := as_dict l); [intros a b H E; apply H; symmetry; exact E|apply isort_perm|apply as_dict_apart]).
  assert (B : StronglySorted (fun a b => fst a <= fst b) (sorted_items l)).
  { apply (isort_sorted key_leb); unfold key_leb; [intros x y H; apply Qleb_le; exact H|intros x y H; apply Qleb_gt in H; lra|intros x y z H H'; lra]. }
  induction A as [|e d A IH F]; cbn; constructor; inversion B as [|? ? B1 B2]; subst; [apply IH; exact B1|]. rewrite Forall_forall in *. intros x X. apply in_map_iff in X as (f & <- & I). specialize (F f I). specialize (B2 f I). unfold apart in F. lra.
Qed.
Lemma dict_put_value {V} (P : V -> Prop) k v (d : list (Q * V)) : P v -> Forall (fun e => P (snd e)) d -> Forall (fun e => P (snd e)) (dict_put k v d).
Proof. intros Pv. induction 1 as [|e d He Hd IH]; cbn; [repeat constructor; exact Pv|]. destruct (fst e =? k); constructor; assumption. Qed.
Lemma as_dict_value {V} (P : V -> Prop) l : Forall (fun e => P (snd e)) l -> Forall (fun e => P (snd e)) (as_dict l).
Proof. unfold as_dict. assert (H : Forall (fun e : Q * V => P (snd e)) []) by constructor. revert H. generalize (@nil (Q * V)). induction l as [|e l IH]; intros d H F; cbn; [exact H|]. inversion F; subst. apply IH; [apply dict_put_value; assumption|assumption]. Qed.
Theorem C97_plugin c inst : plugin c = Ok inst ->
  qssorted (map fst inst) /\ forall e, In e inst -> qssorted (map fst (snd e)) /\ forall e', In e' inst -> Forall2 Qeq (map fst (snd e)) (map fst (snd e')).
Proof.
  unfold plugin. destruct (forallb _ _) eqn:F; [|discriminate]. intro H. apply Ok_inj in H. subst inst. split; [apply sorted_items_strict|]. rewrite forallb_forall in F.
  assert (A : forall e, In e (parse_config c) -> Forall2 Qeq (map fst (snd e)) (model_thresholds (parse_config c))) by (intros e I; apply same_numbers_iff, F, I).
  intros e I. split.
  - assert (G : Forall (fun e => qssorted (map fst (snd e))) (parse_config c)).
    { unfold parse_config, sorted_items at 1. eapply Permutation_Forall; [apply isort_perm|]. apply (as_dict_value (fun m => qssorted (map fst m))). apply Forall_forall. intros x X. apply in_map_iff in X as (y & <- & _). cbn. apply sorted_items_strict. }
    rewrite Forall_forall in G. apply G, I.
  - intros e' I'. apply (Forall2_Qeq_trans _ (model_thresholds (parse_config c))); [apply A, I|apply Forall2_Qeq_sym, A, I'].
Qed.

(** The first model tells how many features there must be. *)
Definition features_wanted (inst : config) (n : nat) : Prop := exists l t m r rest, inst = (l, (t, m) :: r) :: rest /\ fo_features m = n.
Definition row_probabilities (ms : list (Q * forest)) (x : list Q) : list Q := map (fun m => clip 0 1 (predict (snd m) x)) ms.
Lemma row_within ms x : within 0 1 (row_probabilities ms x).
Proof. apply Forall_forall. intros y Y. apply in_map_iff in Y as (m & <- & _). apply clip_bounds. lra. Qed.
Lemma process_inv inst bin numba lb factor lead features forecast outputs outs data : process inst bin numba lb factor lead features forecast outputs = Ok (outs, data) ->
  exists a rows ms n R P, features_wanted inst n /\ n = length features /\ align features forecast = Ok a /\ features_array (fst a) = Ok rows /\ models_at inst (inject_Z lead / 3600) = Ok ms /\ length rows = length (va_data (snd a)) /\
    outs = map (Qmult factor) outputs /\ outs <> [] /\ (qssorted outs \/ qssorted (rev outs)) /\ R = length (match va_real (snd a) with Some r => r | None => [] end) /\ P = (length rows / R)%nat /\
    data = map (fun p => map (mean_at R P (map (fun x => distribution numba lb (model_thresholds inst) outs (make_decreasing (row_probabilities ms x))) (if bin then representatives (feature_splits ms) n rows else rows)) p) (seq 0 (length outs))) (seq 0 P).
Proof.
  unfold process. destruct inst as [|[l [|[t m] r]] rest] eqn:I; try discriminate. rewrite <- I. destruct (Nat.eqb_spec (fo_features m) (length features)) as [E|E]; [|discriminate]. cbn [negb]. intro H.
  destruct (align features forecast) as [a|] eqn:A; [|discriminate]. cbn [bind] in H. destruct (features_array (fst a)) as [rows|] eqn:F; [|discriminate]. cbn [bind] in H. destruct (models_at inst (inject_Z lead / 3600)) as [ms|] eqn:M; [|discriminate]. cbn [bind] in H.
  destruct (Nat.eqb_spec (length rows) (length (va_data (snd a)))) as [L|L]; [|discriminate]. cbn [negb] in H. destruct (map (Qmult factor) outputs) as [|o os] eqn:O; [discriminate|]. rewrite <- O in *. destruct (strictly_monotonic (map (Qmult factor) outputs)) eqn:S; [|discriminate].
  apply Ok_inj in H. apply pair_equal_spec in H as [<- <-]. exists a, rows, ms, (fo_features m), (length (match va_real (snd a) with Some r => r | None => [] end)), (length rows / length (match va_real (snd a) with Some r => r | None => [] end))%nat.
  split; [exists l, t, m, r, rest; split; trivial|]. do 6 (split; [first [assumption|reflexivity]|]). split; [intro X; rewrite X in O; discriminate|]. split; [unfold strictly_monotonic in S; apply orb_true_iff in S as [S|S]; apply increasing_b_iff in S; [left|right]; exact S|]. split; [reflexivity|]. split; [reflexivity|].
  unfold evaluate. rewrite map_map, map_map. reflexivity.
Qed.
Lemma models_length c inst t ms : plugin c = Ok inst -> models_at inst t = Ok ms -> exists e, chosen inst t e /\ ms = snd e /\ Forall2 Qeq (map fst ms) (model_thresholds inst).
Proof.
  intros Hp H. destruct (C97_plugin _ _ Hp) as (So & F). destruct inst as [|e0 r] eqn:I; [discriminate|]. rewrite <- I in *. destruct (models_at_ok inst t ltac:(rewrite I; discriminate) (qssorted_qsorted _ So)) as (e & Ch & M). rewrite H in M. apply Ok_inj in M. exists e. split; [exact Ch|]. split; [exact M|].
  rewrite M. destruct Ch as [Ie _]. destruct (F e Ie) as [_ G]. assert (E : model_thresholds inst = map fst (snd e0)) by (rewrite I; destruct e0; reflexivity). rewrite E. apply G. rewrite I. left. reflexivity.
Qed.
Lemma mean_within R P rows p k : (0 < R)%nat -> (forall x, In x rows -> within 0 1 x) -> 0 <= mean_at R P rows p k <= 1.
Proof.
  intros HR W. unfold mean_at. assert (Pos : 0 < Qn R) by (unfold Qn; change 0 with (inject_Z 0); rewrite <- Zlt_Qlt; lia).
  assert (B : forall r, 0 <= nth k (nth (r * P + p) rows []) 0 <= 1).
  { intro r. destruct (le_lt_dec (length rows) (r * P + p)) as [L|L]; [rewrite nth_overflow with (l := rows) by exact L; destruct k; cbn; lra|]. destruct (le_lt_dec (length (nth (r * P + p) rows [])) k) as [K|K]; [rewrite nth_overflow by exact K; lra|].
    specialize (W _ (nth_In rows [] L)). unfold within in W. rewrite Forall_forall in W. apply W, nth_In, K. }
  assert (S1 : 0 <= qsum (map (fun r => nth k (nth (r * P + p) rows []) 0) (seq 0 R))) by (apply qsum_nonneg, Forall_forall; intros x X; apply in_map_iff in X as (r & <- & _); apply B).
  assert (S2 : qsum (map (fun r => nth k (nth (r * P + p) rows []) 0) (seq 0 R)) <= Qn R).
  { apply Qle_trans with (qsum (map (fun _ => 1) (seq 0 R))); [apply qsum_map_le; intros r _; apply B|]. rewrite qsum_const, seq_length. lra. }
  split; [apply Qle_shift_div_l; [exact Pos|lra]|apply Qle_shift_div_r; [exact Pos|lra]].
Qed.
Lemma mean_le R P rows p j k : (0 < R)%nat -> (forall r, (r < R)%nat -> nth j (nth (r * P + p) rows []) 0 <= nth k (nth (r * P + p) rows []) 0) -> mean_at R P rows p j <= mean_at R P rows p k.
Proof.
  intros HR H. unfold mean_at. assert (Pos : 0 < Qn R) by (unfold Qn; change 0 with (inject_Z 0); rewrite <- Zlt_Qlt; lia). unfold Qdiv. apply Qmult_le_compat_r; [|apply Qlt_le_weak, Qinv_lt_0_compat; exact Pos].
  apply qsum_map_le. intros r X. apply H. apply in_seq in X. lia.
Qed.
(** Whatever the trees say, the results are probabilities, one for each threshold asked for, and never larger for a later threshold. *)
Theorem C97_probabilities c inst bin numba lb factor lead features forecast outputs outs data : plugin c = Ok inst -> process inst bin numba lb factor lead features forecast outputs = Ok (outs, data) ->
  outs = map (Qmult factor) outputs /\ forall col, In col data -> length col = length outputs /\ within 0 1 col /\ non_increasing col.
Proof.
  intros Hp H. apply process_inv in H as (a & rows & ms & n & R & P & _ & _ & _ & _ & M & _ & EO & _ & _ & ER & EP & ED). split; [exact EO|]. intros col C. rewrite ED in C. apply in_map_iff in C as (p & <- & Ip). apply in_seq in Ip.
  assert (HR : (0 < R)%nat) by (destruct R; [subst P; cbn in Ip; lia|lia]). destruct (models_length _ _ _ _ Hp M) as (e & _ & _ & LM). apply Forall2_len in LM. rewrite map_length in LM.
  set (rows' := if bin then representatives (feature_splits ms) n rows else rows) in *. set (ds := map (fun x => distribution numba lb (model_thresholds inst) outs (make_decreasing (row_probabilities ms x))) rows').
  assert (G : forall x, length (distribution numba lb (model_thresholds inst) outs (make_decreasing (row_probabilities ms x))) = length outs /\ within 0 1 (distribution numba lb (model_thresholds inst) outs (make_decreasing (row_probabilities ms x))) /\ non_increasing (distribution numba lb (model_thresholds inst) outs (make_decreasing (row_probabilities ms x)))).
  { intro x. destruct (C97_made_monotone (row_probabilities ms x)) as (L1 & N1 & W1 & _). apply distribution_ok; [rewrite L1; unfold row_probabilities; rewrite map_length; exact LM|apply W1, row_within|exact N1]. }
  split; [rewrite map_length, seq_length, EO, map_length; reflexivity|]. split.
  - apply Forall_forall. intros y Y. apply in_map_iff in Y as (k & <- & _). apply mean_within; [exact HR|]. intros x X. apply in_map_iff in X as (z & <- & _). apply G.
  - intros i j Hij. rewrite map_length, seq_length in Hij. rewrite !nth_map_seq by lia. apply mean_le; [exact HR|]. intros r Hr. fold ds. destruct (le_lt_dec (length ds) (r * P + p)) as [L|L]; [rewrite !(nth_overflow ds) by exact L; destruct i, j; cbn; lra|].
    assert (I : In (nth (r * P + p) ds []) ds) by (apply nth_In; exact L). apply in_map_iff in I as (x & <- & _). destruct (G x) as (LL & _ & N). apply N. lia.
Qed.
(** The exact value: the mean over the realizations of the probabilities interpolated between (lower bound, 1) and those of the trees at the model's thresholds, made non-increasing. *)
Theorem C97_value c inst numba lb factor lead features forecast ordered outputs rs P : plugin c = Ok inst -> features_wanted inst (length features) ->
  Permutation features ordered -> StronglySorted str_lt (map va_name ordered) -> (forall v, In v features -> va_dims v = va_dims forecast) -> members rs (features ++ [forecast]) -> Forall (shaped P) (features ++ [forecast]) -> features <> [] -> rs <> [] ->
  let outs := map (Qmult factor) outputs in let thr := model_thresholds inst in
  outs <> [] -> qssorted outs -> spaced (lb :: thr) -> (length thr = length outs -> allclose thr outs = true -> Forall2 Qeq thr outs) ->
  exists e data, chosen inst (inject_Z lead / 3600) e /\ process inst false numba lb factor lead features forecast outputs = Ok (outs, data) /\ length data = P /\
    forall p k, (p < P)%nat -> (k < length outs)%nat -> nth k (nth p data []) 0 ==
      if (k =? 0)%nat && isclose (nth 0 outs 0) lb then 1
      else qsum (map (fun r => np_interp ((lb, 1) :: combine thr (make_decreasing (row_probabilities (snd e) (map (value_at P r p) ordered)))) (nth k outs 0)) (seq 0 (length rs))) / Qn (length rs).
Proof.
  intros Hp Hw Pm So D M Sh NE NR outs thr NO Os Sp Cl. assert (Sh' : forall v, In v features -> (va_real v = None \/ va_real v = Some rs) /\ shaped P v).
  { intros v V. rewrite Forall_forall in Sh. split; [apply (proj1 M)|apply Sh]; apply in_or_app; left; exact V. }
  assert (NO' : ordered <> []) by (intro X; subst ordered; apply Permutation_sym, Permutation_nil in Pm; contradiction).
  destruct (array_ok rs P features ordered Pm So NO' Sh') as (rows & FA & LR & VR). pose proof (align_ok rs features forecast D M) as AL.
  assert (Hf : va_real forecast = None \/ va_real forecast = Some rs) by (apply (proj1 M); apply in_or_app; right; left; reflexivity).
  assert (Sf : shaped P forecast) by (rewrite Forall_forall in Sh; apply Sh; apply in_or_app; right; left; reflexivity).
  destruct (broadcast_data rs P forecast Hf Sf) as (LF & _). destruct Hw as (l & t & m & r & rest & I & W). destruct (C97_plugin _ _ Hp) as (SI & _).
  destruct (models_at_ok inst (inject_Z lead / 3600) ltac:(rewrite I; discriminate) (qssorted_qsorted _ SI)) as (e & Ch & MA). destruct (models_length _ _ _ _ Hp MA) as (_ & _ & _ & LM). apply Forall2_len in LM. rewrite map_length in LM.
  assert (HR : (0 < length rs)%nat) by (destruct rs; [contradiction|cbn; lia]).
  set (ds := map (fun x => distribution numba lb thr outs (make_decreasing (row_probabilities (snd e) x))) rows).
  assert (PR : process inst false numba lb factor lead features forecast outputs = Ok (outs, map (fun p => map (mean_at (length rs) P ds p) (seq 0 (length outs))) (seq 0 P))).
  { unfold process. rewrite I at 1. rewrite W, Nat.eqb_refl. cbn [negb]. rewrite AL. cbn [bind fst snd]. rewrite FA. cbn [bind]. rewrite MA. cbn [bind]. rewrite LF, LR, Nat.eqb_refl. cbn [negb]. fold outs. destruct outs as [|o os] eqn:O; [contradiction|]. rewrite <- O in *.
    unfold strictly_monotonic. rewrite (proj2 (increasing_b_iff outs) Os). cbn [orb]. rewrite (broadcast_real rs forecast Hf). assert (DV : (length rs * P / length rs = P)%nat) by (rewrite Nat.mul_comm; apply Nat.div_mul; lia). rewrite DV. unfold evaluate. rewrite !map_map. unfold ds, row_probabilities. rewrite O. reflexivity. }
  exists e. eexists. split; [exact Ch|]. split; [exact PR|]. split; [rewrite map_length, seq_length; reflexivity|]. intros p k Hpp Hk. rewrite nth_map_seq by exact Hpp. rewrite nth_map_seq by exact Hk. unfold mean_at.
  assert (V : forall r, (r < length rs)%nat -> nth k (nth (r * P + p) ds []) 0 == if (k =? 0)%nat && isclose (nth 0 outs 0) lb then 1 else np_interp ((lb, 1) :: combine thr (make_decreasing (row_probabilities (snd e) (map (value_at P r p) ordered)))) (nth k outs 0)).
  { intros q Hq. unfold ds. rewrite nth_map_lt with (d := []) by nia. rewrite (VR q p Hq Hpp). destruct (C97_made_monotone (row_probabilities (snd e) (map (value_at P q p) ordered))) as (L1 & N1 & W1 & _).
    apply distribution_value; [rewrite L1; unfold row_probabilities; rewrite map_length; exact LM|apply W1, row_within|exact N1|exact Sp|exact Os|exact Cl|exact Hk]. }
  assert (Pos : 0 < Qn (length rs)) by (unfold Qn; change 0 with (inject_Z 0); rewrite <- Zlt_Qlt; lia).
  destruct ((k =? 0)%nat && isclose (nth 0 outs 0) lb).
  - rewrite (qsum_map_ext _ (fun _ => 1)) by (intros q X; apply in_seq in X; apply V; lia). rewrite qsum_const, seq_length. field. lra.
  - rewrite (qsum_map_ext _ (fun r => np_interp ((lb, 1) :: combine thr (make_decreasing (row_probabilities (snd e) (map (value_at P r p) ordered)))) (nth k outs 0))) by (intros q X; apply in_seq in X; apply V; lia). reflexivity.
Qed.

(** * Binning *)
Lemma nat_list_eqb_iff a : forall b, nat_list_eqb a b = true <-> a = b.
Proof. induction a as [|x a IH]; intros [|y b]; cbn; split; intro H; try discriminate; try reflexivity; [apply andb_true_iff in H as [X Y]; apply Nat.eqb_eq in X; apply IH in Y; congruence|injection H as -> ->; rewrite Nat.eqb_refl; apply IH; reflexivity]. Qed.
Lemma fill_length l : forall k m, length (fill k m l) = length l.
Proof. induction l as [|b l IH]; intros k m; cbn; [reflexivity|f_equal; apply IH]. Qed.
Lemma changed_length l : forall p, length (changed p l) = length l.
Proof. induction l as [|b l IH]; intro p; cbn; [reflexivity|f_equal; apply IH]. Qed.
Lemma fill_changed s l : forall k m prev, (forall i, (i < length l)%nat -> nth (k + i) s [] = nth i l []) -> nth m s [] = prev -> (m < k)%nat ->
  forall i, (i < length l)%nat -> nth (nth i (fill k m (changed prev l)) 0%nat) s [] = nth i l [] /\ (nth i (fill k m (changed prev l)) 0 < k + length l)%nat.
Proof.
  induction l as [|x l IH]; intros k m prev H E Hm i Hi; cbn [length] in *; [lia|]. cbn [changed fill].
  assert (G : exists m', Nat.max m (if negb (nat_list_eqb prev x) then k else 0%nat) = m' /\ nth m' s [] = x /\ (m' < S k)%nat).
  { destruct (nat_list_eqb prev x) eqn:B; cbn [negb].
    - exists m. split; [lia|]. apply nat_list_eqb_iff in B. split; [congruence|lia].
    - exists k. split; [lia|]. split; [|lia]. specialize (H 0%nat ltac:(lia)). rewrite Nat.add_0_r in H. exact H. }
  destruct G as (m' & -> & E' & Hm'). destruct i as [|i]; cbn [nth]; [split; [exact E'|lia]|].
  destruct (IH (S k) m' x ltac:(intros j Hj; specialize (H (S j) ltac:(lia)); cbn [nth] in H; rewrite <- H; f_equal; lia) E' Hm' i ltac:(lia)) as [A B]. split; [exact A|lia].
Qed.
Lemma fill_rows s i : (i < length s)%nat -> nth (nth i (fill_inds (predict_rows s)) 0%nat) s [] = nth i s [] /\ (nth i (fill_inds (predict_rows s)) 0 < length s)%nat.
Proof.
  destruct s as [|x s]; cbn [length]; [lia|]. intro Hi. unfold fill_inds, predict_rows. cbn [fill Nat.max]. destruct i as [|i]; cbn [nth]; [split; [reflexivity|lia]|].
  destruct (fill_changed (x :: s) s 1 0 x ltac:(intros j Hj; reflexivity) eq_refl ltac:(lia) i ltac:(lia)) as [A B]. split; [exact A|lia].
Qed.
Lemma lexsort_perm b : Permutation (lexsort b) (seq 0 (length b)).
Proof. unfold lexsort. rewrite <- isort_perm. rewrite map_snd_combine by (rewrite seq_length; reflexivity). reflexivity. Qed.
Lemma index_of_nth i l : In i l -> (index_of i l < length l)%nat /\ nth (index_of i l) l 0%nat = i.
Proof. induction l as [|x l IH]; intros []; cbn; (destruct (Nat.eqb_spec x i); [split; [lia|assumption]|]); [contradiction|]. destruct (IH H) as [A B]. split; [lia|exact B]. Qed.
Lemma representative splits n rows i : (i < length rows)%nat -> In (nth i (representatives splits n rows) []) rows /\ bins splits n (nth i (representatives splits n rows) []) = bins splits n (nth i rows []).
Proof.
  intro Hi. unfold representatives. rewrite nth_map_seq by exact Hi. set (binned := map (bins splits n) rows). set (si := lexsort binned). set (sd := map (fun i => nth i binned []) si).
  assert (Pm : Permutation si (seq 0 (length rows))) by (unfold si; rewrite lexsort_perm; unfold binned; rewrite map_length; reflexivity). assert (Ls : length si = length rows) by (rewrite Pm, seq_length; reflexivity).
  assert (Ij : In i si) by (apply (Permutation_in _ (Permutation_sym Pm)), in_seq; lia). destruct (index_of_nth i si Ij) as [Hj Ej]. set (j := index_of i si) in *. assert (Ld : length sd = length rows) by (unfold sd; rewrite map_length; exact Ls).
  destruct (fill_rows sd j ltac:(lia)) as [E B]. assert (Lf : length (fill_inds (predict_rows sd)) = length sd) by (unfold fill_inds; rewrite fill_length; destruct sd; [reflexivity|cbn; rewrite changed_length; reflexivity]).
  rewrite nth_map_lt with (d := 0%nat) by lia. set (f := nth j (fill_inds (predict_rows sd)) 0%nat) in *. assert (Hf : (nth f si 0 < length rows)%nat). { assert (X : In (nth f si 0%nat) si) by (apply nth_In; lia). apply (Permutation_in _ Pm), in_seq in X. lia. }
  split; [apply nth_In; exact Hf|]. unfold sd in E. rewrite !nth_map_lt with (d := 0%nat) in E by lia. rewrite Ej in E. unfold binned in E. rewrite !nth_map_lt with (d := []) in E by assumption. exact E.
Qed.
Lemma ssr_same l x x' : qsorted l -> searchsorted_right l x = searchsorted_right l x' -> forall s, In s l -> (s <= x <-> s <= x').
Proof.
  induction l as [|y l IH]; intros So E s I; [destruct I|]. cbn [searchsorted_right] in E. inversion So as [|? ? So' F]; subst. rewrite Forall_forall in F.
  destruct (Qleb_spec y x), (Qleb_spec y x'); try discriminate.
  - injection E as E. destruct I as [<-|I]; [split; intro; assumption|apply IH; assumption].
  - assert (G : y <= s) by (destruct I as [<-|I]; [lra|apply F; exact I]). split; intro; lra.
Qed.
Lemma uniq_in l : forall x, In x l -> exists y, In y (uniq l) /\ y == x.
Proof.
  induction l as [|z l IH]; intros x []; cbn.
  - subst z. destruct (existsb (Qeq_bool x) l) eqn:B; [|exists x; split; [left; reflexivity|reflexivity]]. apply existsb_exists in B as (y & I & E). apply Qeqb_eq in E. destruct (IH y I) as (w & W & E'). exists w. split; [exact W|rewrite E', E; reflexivity].
  - destruct (IH x H) as (y & Y & E). exists y. split; [|exact E]. destruct (existsb (Qeq_bool z) l); [exact Y|right; exact Y].
Qed.
Lemma splits_in ms f s m t : In m ms -> In t (fo_trees (snd m)) -> In s (tree_splits f t) -> exists y, In y (feature_splits ms f) /\ y == s.
Proof.
  intros M T H. destruct (uniq_in (flat_map (fun m => flat_map (tree_splits f) (fo_trees (snd m))) ms) s) as (y & Y & E); [apply in_flat_map; exists m; split; [exact M|apply in_flat_map; exists t; split; assumption]|].
  exists y. split; [|exact E]. apply (Permutation_in _ (qsort_perm _)). exact Y.
Qed.
Lemma tree_same t x x' : (forall f s, In s (tree_splits f t) -> (nth f x 0 <= s <-> nth f x' 0 <= s)) -> tree_value t x = tree_value t x'.
Proof.
  induction t as [v|f s l IHl r IHr]; intro H; cbn; [reflexivity|]. assert (A : nth f x 0 <= s <-> nth f x' 0 <= s) by (apply H; cbn; rewrite Nat.eqb_refl; left; reflexivity).
  assert (HL : tree_value l x = tree_value l x') by (apply IHl; intros g u U; apply H; cbn; apply in_or_app; right; apply in_or_app; left; exact U). assert (HR : tree_value r x = tree_value r x') by (apply IHr; intros g u U; apply H; cbn; apply in_or_app; right; apply in_or_app; right; exact U).
  destruct (Qleb_spec (nth f x 0) s), (Qleb_spec (nth f x' 0) s); try assumption; exfalso; tauto || (apply A in H0; lra) || lra.
Qed.
Lemma binned_rows ms n rows : (forall x, In x rows -> length x = n) -> (forall x f m t s, In x rows -> In m ms -> In t (fo_trees (snd m)) -> In s (tree_splits f t) -> ~ nth f x 0 == s) -> evaluate true n ms rows = evaluate false n ms rows.
Proof.
  intros L N. unfold evaluate. assert (LR : length (representatives (feature_splits ms) n rows) = length rows) by (unfold representatives; rewrite map_length, seq_length; reflexivity).
  apply nth_ext with (d := []) (d' := []); [rewrite !map_length; exact LR|]. rewrite map_length, LR. intros i Hi. rewrite !nth_map_lt with (d := []) by (rewrite ?LR; exact Hi).
  destruct (representative (feature_splits ms) n rows i Hi) as [I B]. set (x' := nth i (representatives (feature_splits ms) n rows) []) in *. assert (Ix : In (nth i rows []) rows) by (apply nth_In; exact Hi). set (x := nth i rows []) in *.
  apply map_ext_in. intros m M. f_equal. unfold predict. f_equal. apply map_ext_in. intros t T. apply tree_same. intros f s H.
  pose proof (N x' f m t s I M T H) as N1. pose proof (N x f m t s Ix M T H) as N2. destruct (le_lt_dec n f) as [F|F]; [rewrite !nth_overflow by (rewrite L by assumption; exact F); reflexivity|].
  assert (E : searchsorted_right (feature_splits ms f) (nth f x' 0) = searchsorted_right (feature_splits ms f) (nth f x 0)).
  { unfold bins in B. assert (G := f_equal (fun l => nth f l 0%nat) B). cbn beta in G. rewrite !nth_map_seq in G by exact F. exact G. }
  destruct (splits_in ms f s m t M T H) as (y & Y & Ey). pose proof (ssr_same _ _ _ (qsort_sorted _) E y Y) as Q. rewrite Ey in Q. split; intro; destruct (Qlt_le_dec (nth f x' 0) s), (Qlt_le_dec (nth f x 0) s); try lra; exfalso; tauto || (assert (nth f x' 0 == s) by lra; contradiction) || (assert (nth f x 0 == s) by lra; contradiction).
Qed.
Theorem C97_binning c inst numba lb factor lead features forecast ordered outputs rs P : plugin c = Ok inst -> features_wanted inst (length features) ->
  Permutation features ordered -> StronglySorted str_lt (map va_name ordered) -> (forall v, In v features -> va_dims v = va_dims forecast) -> members rs (features ++ [forecast]) -> Forall (shaped P) (features ++ [forecast]) -> features <> [] ->
  (forall r p e m t f s, (r < length rs)%nat -> (p < P)%nat -> In e inst -> In m (snd e) -> In t (fo_trees (snd m)) -> In s (tree_splits f t) -> ~ nth f (map (value_at P r p) ordered) 0 == s) ->
  process inst true numba lb factor lead features forecast outputs = process inst false numba lb factor lead features forecast outputs.
Proof.
  intros Hp (l & t & m & r & rest & I & W) Pm So D M Sh NE N. assert (Sh' : forall v, In v features -> (va_real v = None \/ va_real v = Some rs) /\ shaped P v).
  { intros v V. rewrite Forall_forall in Sh. split; [apply (proj1 M)|apply Sh]; apply in_or_app; left; exact V. }
  assert (NO' : ordered <> []) by (intro X; subst ordered; apply Permutation_sym, Permutation_nil in Pm; contradiction).
  destruct (array_ok rs P features ordered Pm So NO' Sh') as (rows & FA & LR & VR). pose proof (align_ok rs features forecast D M) as AL. destruct (models_at inst (inject_Z lead / 3600)) as [ms|] eqn:MA.
  - destruct (models_length _ _ _ _ Hp MA) as (e & (Ie & _) & -> & _).
    assert (RW : forall x, In x rows -> exists a b, (a < length rs)%nat /\ (b < P)%nat /\ x = map (value_at P a b) ordered).
    { intros x X. apply (In_nth _ _ []) in X as (i & Hi & <-). rewrite LR in Hi. assert (PP : P <> 0%nat) by (intro; subst P; lia). exists (i / P)%nat, (i mod P)%nat. pose proof (Nat.div_mod i P PP) as DM. pose proof (Nat.mod_upper_bound i P PP).
      assert (i / P < length rs)%nat by (apply Nat.div_lt_upper_bound; lia). split; [assumption|]. split; [assumption|]. rewrite <- VR by assumption. f_equal. lia. }
    assert (B : evaluate true (length features) (snd e) rows = evaluate false (length features) (snd e) rows).
    { apply binned_rows.
      - intros x X. destruct (RW x X) as (a & b & _ & _ & ->). rewrite map_length. symmetry. apply Permutation_length. exact Pm.
      - intros x f m' t' s X Im It Is. destruct (RW x X) as (a & b & Ha & Hb & ->). eapply N; eassumption. }
    rewrite I in MA |- *. unfold process. rewrite W. destruct (negb _); [reflexivity|]. rewrite AL. cbn [bind fst snd]. rewrite FA. cbn [bind]. rewrite MA. cbn [bind]. rewrite B. reflexivity.
  - rewrite I in MA |- *. unfold process. destruct (negb _); [reflexivity|]. rewrite AL. cbn [bind fst snd]. rewrite FA. cbn [bind]. rewrite MA. reflexivity.
Qed.

(** * Order of the configuration, and what is refused *)
Lemma dict_put_new {V} k (v : V) d : Forall (fun e => ~ fst e == k) d -> dict_put k v d = d ++ [(k, v)].
Proof. induction 1 as [|e d He Hd IH]; cbn; [reflexivity|]. destruct (Qeqb_spec (fst e) k); [contradiction|]. f_equal. exact IH. Qed.
Lemma as_dict_id {V} (l : list (Q * V)) : StronglySorted apart l -> as_dict l = l.
Proof.
  unfold as_dict. intro So. change l with ([] ++ l) at 2. assert (H : forall d e, In d (@nil (Q * V)) -> In e l -> apart d e) by (intros d e []). revert H. generalize (@nil (Q * V)). induction So as [|x l So IH F]; intros d H; cbn [fold_left]; [rewrite app_nil_r; reflexivity|].
  rewrite dict_put_new by (apply Forall_forall; intros e I; apply (H e x I); left; reflexivity). destruct x as [k v]. cbn [fst snd]. rewrite IH; [rewrite <- app_assoc; reflexivity|].
  intros a b A B. apply in_app_or in A as [A|[<-|[]]]; [apply H; [exact A|right; exact B]|rewrite Forall_forall in F; apply F; exact B].
Qed.
Lemma sorted_items_perm {V} (l m : list (Q * V)) : StronglySorted apart l -> Permutation l m -> sorted_items l = sorted_items m.
Proof.
  intros So Pm. assert (So' : StronglySorted apart m) by (apply (sym_sorted_perm apart) with (l := l); [intros a b H E; apply H; symmetry; exact E|exact Pm|exact So]).
  apply (sorted_unique_perm (fun a b => fst a <= fst b) (fun a b => fst a < fst b)); [intros a b H H'; lra| | |].
  - pose proof (sorted_items_strict m) as G. induction (sorted_items m) as [|x r IH]; constructor; cbn in G; inversion G as [|? ? G1 G2]; subst; [apply IH; exact G1|]. rewrite Forall_forall in *. intros y Y. apply G2. apply in_map. exact Y.
  - unfold sorted_items. rewrite <- !isort_perm, !as_dict_id by assumption. apply Permutation_sym. exact Pm.
  - apply (isort_sorted key_leb); unfold key_leb; [intros x y H; apply Qleb_le; exact H|intros x y H; apply Qleb_gt in H; lra|intros x y z H H'; lra].
Qed.
(** Lead times and thresholds may be listed in any order. *)
Lemma put_find {V} k (v : V) q d : option_map snd (find (fun e => fst e =? q) (dict_put k v d)) = if k =? q then Some v else option_map snd (find (fun e => fst e =? q) d).
Proof.
  induction d as [|e d IH]; cbn [dict_put find fst]; [destruct (k =? q); reflexivity|]. destruct (Qeqb_spec (fst e) k) as [E|E]; cbn [find fst].
  - assert (Eq : (fst e =? q) = (k =? q)) by (apply eq_true_iff_eq; rewrite !Qeqb_eq, E; tauto). rewrite Eq. destruct (k =? q); reflexivity.
  - destruct (Qeqb_spec (fst e) q) as [E2|E2]; [|exact IH]. destruct (Qeqb_spec k q) as [E3|E3]; [exfalso; apply E; now rewrite E2, E3|reflexivity].
Qed.
Lemma dict_find {V} q (l : list (Q * V)) : option_map snd (find (fun e => fst e =? q) (as_dict l)) = option_map snd (find (fun e => fst e =? q) (rev l)).
Proof.
  unfold as_dict. assert (G : forall d, option_map snd (find (fun e => fst e =? q) (fold_left (fun d e => dict_put (fst e) (snd e) d) l d)) = match find (fun e => fst e =? q) (rev l) with Some e => Some (snd e) | None => option_map snd (find (fun e => fst e =? q) d) end).
  - induction l as [|e l IH]; intro d; [reflexivity|]. cbn [fold_left rev]. rewrite IH, put_find. assert (F : forall a b, find (fun x : Q * V => fst x =? q) (a ++ b) = match find (fun x => fst x =? q) a with Some x => Some x | None => find (fun x => fst x =? q) b end) by (clear; intro a; induction a as [|x a IH]; intro b; [reflexivity|]; cbn; rewrite IH; destruct (fst x =? q); reflexivity).
    rewrite F. destruct (find _ (rev l)); [reflexivity|]. cbn [find]. destruct (fst e =? q); reflexivity.
  - rewrite G. destruct (find _ (rev l)); reflexivity.
Qed.
Lemma find_apart {V} (d : list (Q * V)) k v : StronglySorted apart d -> In (k, v) d -> option_map snd (find (fun e => fst e =? k) d) = Some v.
Proof.
  induction 1 as [|e d So IH F]; intro I0; [destruct I0|]. cbn [find]. destruct I0 as [->|I0]; [cbn [fst]; replace (k =? k) with true by (symmetry; apply Qeqb_eq; reflexivity); reflexivity|].
  destruct (Qeqb_spec (fst e) k) as [E|E]; [|exact (IH I0)]. rewrite Forall_forall in F. exfalso. exact (F _ I0 E).
Qed.
Lemma items_last {V} (l : list (Q * V)) k v : In (k, v) (sorted_items l) -> exists e, find (fun e => fst e =? k) (rev l) = Some e /\ snd e = v.
Proof.
  intro I0. unfold sorted_items in I0. apply (Permutation_in _ (Permutation_sym (isort_perm _ _))) in I0. pose proof (find_apart _ _ _ (as_dict_apart l) I0) as F. rewrite dict_find in F. destruct (find _ (rev l)) as [e|]; [|discriminate]. cbn in F. injection F as F. eauto.
Qed.
(** C97: of models given for one lead time and threshold (however they are written) the last one is used. *)
Theorem C97_last_model c inst k m t f : plugin c = Ok inst -> In (k, m) inst -> In (t, f) m -> exists e e', find (fun e => fst e =? k) (rev c) = Some e /\ find (fun e => fst e =? t) (rev (snd e)) = Some e' /\ snd e' = f.
Proof.
  unfold plugin. destruct (forallb _ _); [|discriminate]. intro H. injection H as <-. intros Ik It. unfold parse_config in Ik. apply items_last in Ik as (e & F & E). rewrite <- map_rev in F.
  assert (G : forall l, find (fun e0 : Q * list (Q * forest) => fst e0 =? k) (map (fun e0 => (fst e0, sorted_items (snd e0))) l) = option_map (fun e0 => (fst e0, sorted_items (snd e0))) (find (fun e0 : Q * list (Q * forest) => fst e0 =? k) l)) by (induction l as [|a l IH]; [reflexivity|]; cbn [map find fst]; rewrite IH; destruct (fst a =? k); reflexivity).
  rewrite G in F. destruct (find _ (rev c)) as [e0|]; [|discriminate]. cbn [option_map] in F. injection F as <-. cbn [snd] in E. subst m. apply items_last in It as (e' & F' & E'). exists e0, e'. auto.
Qed.
Theorem C97_config_order (c c1 c2 : config) : StronglySorted apart c -> Forall (fun e => StronglySorted apart (snd e)) c -> Forall2 (fun a b => fst a = fst b /\ Permutation (snd a) (snd b)) c c1 -> Permutation c1 c2 -> plugin c = plugin c2.
Proof.
  intros So In1 F Pm. assert (E : parse_config c = parse_config c2); [|unfold plugin; rewrite E; reflexivity]. unfold parse_config.
  assert (M : map (fun e => (fst e, sorted_items (snd e))) c = map (fun e => (fst e, sorted_items (snd e))) c1).
  { clear So Pm. induction F as [|a b c c1 [E P] F IH]; cbn; [reflexivity|]. inversion In1; subst. rewrite E, (sorted_items_perm _ _ H1 P), IH by assumption. reflexivity. }
  apply sorted_items_perm; [|rewrite M; apply Permutation_map; exact Pm]. clear In1 F M. induction So as [|x c So IH G]; cbn; constructor; [exact IH|]. rewrite Forall_forall in *. intros y Y. apply in_map_iff in Y as (z & <- & Z). apply (G z Z).
Qed.
Lemma once_nodup (l : list variable) : (forall v, In v l -> exists w, filter (fun u => String.eqb (va_name u) (va_name v)) l = [w]) -> NoDup (map va_name l).
Proof.
  induction l as [|x l IH]; intro H; cbn; constructor.
  - destruct (H x (or_introl eq_refl)) as (w & W). cbn [filter] in W. rewrite String.eqb_refl in W. injection W as _ W. intro X. apply in_map_iff in X as (v & E & V). assert (G : In v (filter (fun u => String.eqb (va_name u) (va_name x)) l)) by (apply filter_In; split; [exact V|apply String.eqb_eq; exact E]). rewrite W in G. destruct G.
  - assert (Nx : forall v, In v l -> va_name x <> va_name v). { intros v V E. destruct (H x (or_introl eq_refl)) as (w & W). cbn [filter] in W. rewrite String.eqb_refl in W. injection W as _ W. assert (G : In v (filter (fun u => String.eqb (va_name u) (va_name x)) l)) by (apply filter_In; split; [exact V|apply String.eqb_eq; symmetry; exact E]). rewrite W in G. destruct G. }
    apply IH. intros v V. destruct (H v (or_intror V)) as (w & W). exists w. cbn [filter] in W. destruct (String.eqb_spec (va_name x) (va_name v)) as [E|E]; [destruct (Nx v V E)|exact W].
Qed.
Lemma array_names l rows : features_array l = Ok rows -> NoDup (map va_name l).
Proof.
  unfold features_array. destruct (mapM _ _) as [r|] eqn:M; [|discriminate]. intros _. apply once_nodup. intros v V.
  assert (I : In (va_name v) (isort String.leb (map va_name l))) by (apply (Permutation_in _ (isort_perm _ _)), in_map; exact V). revert r M I. generalize (isort String.leb (map va_name l)). induction l0 as [|n ns IH]; intros r M []; cbn in M.
  - subst n. destruct (extract_cube (va_name v) l) as [w|] eqn:E; [|discriminate]. unfold extract_cube in E. destruct (filter _ l) as [|a [|b q]]; try discriminate. exists a. reflexivity.
  - destruct (extract_cube n l); [|discriminate]. cbn in M. destruct (mapM _ ns) as [q|] eqn:E; [|discriminate]. apply (IH q); [reflexivity|exact H].
Qed.
Theorem C97_refused inst bin numba lb factor lead features forecast outputs res : process inst bin numba lb factor lead features forecast outputs = Ok res ->
  features_wanted inst (length features) /\ NoDup (map va_name features) /\ outputs <> [] /\ (qssorted (map (Qmult factor) outputs) \/ qssorted (rev (map (Qmult factor) outputs))) /\
  forall v, In v features -> map fst (va_dims v) = map fst (va_dims forecast) /\ Forall2 (Forall2 Qeq) (map snd (va_dims v)) (map snd (va_dims forecast)).
Proof.
  destruct res as [outs data]. intro H. apply process_inv in H as (a & rows & ms & n & R & P & Wt & En & Al & FA & _ & _ & EO & NO & Mo & _). subst n. split; [exact Wt|].
  unfold align in Al. destruct (forallb _ (features ++ [forecast])) eqn:D; [|discriminate]. cbn [negb] in Al. assert (Ef : exists rs, fst a = map (broadcast rs) features).
  { destruct (realization_coords _) as [|[nm r0] others]; [|destruct (forallb _ others); [|discriminate]]; apply Ok_inj in Al; subst a; eexists; reflexivity. }
  destruct Ef as (rs & Ef). rewrite Ef in FA. apply array_names in FA. rewrite map_map in FA. split; [erewrite map_ext; [exact FA|]; intro v; symmetry; apply broadcast_name|].
  split; [intro X; subst outputs; apply NO; exact EO|]. rewrite EO in Mo. split; [exact Mo|]. intros v V. rewrite forallb_forall in D. specialize (D v ltac:(apply in_or_app; left; exact V)). unfold dims_eqb in D. apply andb_true_iff in D as [L F]. apply Nat.eqb_eq in L.
  revert L F. generalize (va_dims v) (va_dims forecast). induction l as [|x l IH]; intros [|y m] L F; try discriminate; [split; [reflexivity|constructor]|]. cbn in L, F. apply andb_true_iff in F as [F1 F2]. apply andb_true_iff in F1 as [F0 F1]. apply String.eqb_eq in F0. apply same_numbers_iff in F1. destruct (IH m ltac:(lia) F2) as [A B]. cbn. split; [congruence|constructor; assumption].
Qed.
(** The values of the forecast itself are not used, only its shape. *)
Theorem C97_forecast_values inst bin numba lb factor lead features forecast data' outputs : length data' = length (va_data forecast) ->
  process inst bin numba lb factor lead features {| va_name := va_name forecast; va_dims := va_dims forecast; va_real := va_real forecast; va_data := data' |} outputs = process inst bin numba lb factor lead features forecast outputs.
Proof.
  intro L. set (forecast' := {| va_name := va_name forecast; va_dims := va_dims forecast; va_real := va_real forecast; va_data := data' |}).
  assert (A : match align features forecast, align features forecast' with Ok a, Ok b => fst a = fst b /\ va_real (snd a) = va_real (snd b) /\ length (va_data (snd a)) = length (va_data (snd b)) | Err e, Err e' => e = e' | _, _ => False end).
  { unfold align. assert (E1 : forallb (fun v => dims_eqb (va_dims v) (va_dims forecast')) (features ++ [forecast']) = forallb (fun v => dims_eqb (va_dims v) (va_dims forecast)) (features ++ [forecast])) by (rewrite !forallb_app; reflexivity). rewrite E1. clear E1. destruct (forallb (fun v => dims_eqb (va_dims v) (va_dims forecast)) (features ++ [forecast])); cbn [negb]; [|exact eq_refl].
    assert (E2 : realization_coords (features ++ [forecast']) = realization_coords (features ++ [forecast])) by (unfold realization_coords; rewrite !fold_left_app; reflexivity). rewrite E2. clear E2.
    assert (G : forall rs, va_real (broadcast rs forecast) = va_real (broadcast rs forecast') /\ length (va_data (broadcast rs forecast)) = length (va_data (broadcast rs forecast'))).
    { intro rs. unfold broadcast, forecast'. cbn. destruct (va_real forecast) eqn:V; cbn; [rewrite V; split; [reflexivity|symmetry; exact L]|]. split; [reflexivity|]. rewrite !repeat_concat, L. reflexivity. }
    destruct (realization_coords _) as [|[nm r0] others]; [split; [reflexivity|apply G]|]. destruct (forallb _ others); [split; [reflexivity|apply G]|exact eq_refl]. }
  unfold process. destruct inst as [|[l [|[t m] r]] rest] eqn:I; try reflexivity. destruct (negb _); [reflexivity|]. destruct (align features forecast) as [[f1 g1]|], (align features forecast') as [[f2 g2]|]; cbn [bind fst snd] in *; try contradiction; [|congruence].
  destruct A as (-> & -> & ->). reflexivity.
Qed.

(** * Cases *)
Definition wet : forest := {| fo_features := 2; fo_trees := [Split 0 1 (Leaf (1 # 5)) (Leaf (4 # 5))] |}.
Definition very_wet : forest := {| fo_features := 2; fo_trees := [Split 1 (1 # 2) (Leaf (1 # 10)) (Leaf (3 # 10)); Leaf (1 # 10)] |}.
Definition some_config : config := [(48, [(3, very_wet); (1, wet)]); (24, [(1, wet); (3, very_wet)])].
Definition var (n : string) (r : option (list Z)) (d : list Q) : variable := {| va_name := n; va_dims := [("x"%string, [0; 10])]; va_real := r; va_data := d |}.
Definition rain (r : option (list Z)) (d : list Q) : variable := var "rain" r d.
Definition inst1 : config := [(24, [(1, wet); (3, very_wet)]); (48, [(1, wet); (3, very_wet)])].
Definition given : list variable := [var "cape" None [0; 2]; rain (Some [0; 1]%Z) [1 # 2; 2; 3; 4]].
Definition asked : list Q := [0; 1 # 2; 1; 2; 5].
Example C97_case : plugin some_config = Ok inst1 /\ features_wanted inst1 (length given) /\ Permutation given given /\ StronglySorted str_lt (map va_name given) /\ (forall v, In v given -> va_dims v = va_dims (rain None [9; 9])) /\
  members [0; 1]%Z (given ++ [rain None [9; 9]]) /\ Forall (shaped 2) (given ++ [rain None [9; 9]]) /\ qssorted (map (Qmult 1) asked) /\ spaced (0 :: model_thresholds inst1) /\ chosen inst1 (inject_Z (36 * 3600) / 3600) (24, [(1, wet); (3, very_wet)]) /\
  match process inst1 false true 0 1 (36 * 3600) given (rain None [9; 9]) asked with Ok (o, [a; b]) => Forall2 Qeq a [1; 5 # 8; 1 # 4; 1 # 4; 1 # 4] /\ Forall2 Qeq b [1; 9 # 10; 4 # 5; 3 # 5; 2 # 5] | _ => False end.
Proof.
  split; [vm_compute; reflexivity|]. split; [unfold features_wanted, inst1; do 5 eexists; split; reflexivity|]. split; [reflexivity|]. split; [repeat constructor|]. split; [intros v [<-|[<-|[]]]; reflexivity|].
  split; [split; [intros v [<-|[<-|[<-|[]]]]; cbn; auto|left; eexists; split; [right; left; reflexivity|reflexivity]]|]. split; [repeat constructor|]. split; [repeat constructor|]. split; [cbn; repeat match goal with |- StronglySorted _ _ => constructor | |- Forall _ _ => constructor | |- spaced _ => constructor | _ => unfold gap, eps15; lra end|].
  split; [split; [left; reflexivity|intros e' [<-|[<-|[]]]; cbn [fst]; vm_compute; split; intros; try discriminate; congruence]|]. vm_compute. split; repeat constructor.
Qed.

(** A value equal to a split goes left in the trees and into the upper bin: with bin_data the point shares the prediction of another one on the other side of the split. *)
Theorem C97_binning_at_split_refuted : exists inst features forecast, plugin some_config = Ok inst /\ match process inst false true 0 1 86400 features forecast [1; 3], process inst true true 0 1 86400 features forecast [1; 3] with
  | Ok (_, [[a; _]; [b; _]]), Ok (_, [[a'; _]; [b'; _]]) => a == 4 # 5 /\ b == 1 # 5 /\ a' == 4 # 5 /\ b' == 4 # 5 | _, _ => False end.
Proof. exists inst1, [var "cape" None [3 # 2; 1]; rain None [0; 0]], (rain None [0; 0]). split; [vm_compute; reflexivity|]. vm_compute. repeat split. Qed.
(** Thresholds asked for from high to low get one probability for all. *)
Theorem C97_descending_refuted : exists inst features forecast, plugin some_config = Ok inst /\ match process inst false true 0 1 86400 features forecast [1; 2; 3], process inst false true 0 1 86400 features forecast [3; 2; 1] with
  | Ok (_, [[a; b; c]; _]), Ok (_, [[c'; b'; a']; _]) => a == 4 # 5 /\ b == 1 # 2 /\ c == 1 # 5 /\ a' == 1 # 2 /\ b' == 1 # 2 /\ c' == 1 # 2 | _, _ => False end.
Proof. exists inst1, [var "cape" None [2; 2]; rain None [0; 0]], (rain None [0; 0]). split; [vm_compute; reflexivity|]. vm_compute. repeat split. Qed.
(** Rates in m s-1: numpy's absolute tolerance of 1e-8 (0.036 mm h-1) makes rain above 0.03 mm h-1 certain although the trees say it never rains, and takes 0.08 mm h-1 for 0.1 mm h-1. *)
Definition dry : forest := {| fo_features := 1; fo_trees := [Leaf 0] |}.
Definition half : forest := {| fo_features := 1; fo_trees := [Leaf (1 # 2)] |}.
Definition mm_h (x : Q) : Q := x / 3600000.
Theorem C97_small_thresholds_refuted :
  (exists inst, plugin [(24, [(mm_h (1 # 10), dry); (mm_h 1, dry)])] = Ok inst /\ match process inst false true 0 1 86400 [rain None [0; 0]] (rain None [0; 0]) [mm_h (3 # 100); mm_h (1 # 10); mm_h 1] with Ok (_, [[a; b; c]; _]) => a == 1 /\ b == 0 /\ c == 0 | _ => False end) /\
  (exists inst, plugin [(24, [(mm_h (1 # 10), half); (mm_h 1, dry)])] = Ok inst /\ match process inst false true 0 1 86400 [rain None [0; 0]] (rain None [0; 0]) [mm_h (8 # 100); mm_h 1], process inst false true 0 1 86400 [rain None [0; 0]] (rain None [0; 0]) [mm_h (8 # 100); mm_h (1 # 10); mm_h 1] with Ok (_, [[a; _]; _]), Ok (_, [[a'; b'; _]; _]) => a == 1 # 2 /\ a' == 3 # 5 /\ b' == 1 # 2 | _, _ => False end).
Proof. split; eexists; (split; [vm_compute; reflexivity|]); vm_compute; repeat split. Qed.
(** The realizations are compared by the names of the variables: those of a feature of the forecast's own name are not compared with the forecast's. *)
Theorem C97_realizations_refuted : exists inst features forecast, plugin some_config = Ok inst /\ (exists v, In v features /\ va_real v = Some [0; 1]%Z) /\ va_real forecast = Some [2; 3]%Z /\ exists res, process inst false true 0 1 86400 features forecast [1; 3] = Ok res.
Proof. exists inst1, [var "cape" None [2; 2]; rain (Some [0; 1]%Z) [0; 0; 0; 0]], (rain (Some [2; 3]%Z) [0; 0; 0; 0]). split; [vm_compute; reflexivity|]. split; [eexists; split; [right; left; reflexivity|reflexivity]|]. split; [reflexivity|]. eexists. vm_compute. reflexivity. Qed.

Print Assumptions C97_made_monotone.
Print Assumptions C97_plugin.
Print Assumptions C97_probabilities.
Print Assumptions C97_value.
Print Assumptions C97_binning.
Print Assumptions C97_last_model.
Print Assumptions C97_config_order.
Print Assumptions C97_refused.
Print Assumptions C97_forecast_values.
Print Assumptions C97_binning_at_split_refuted.
Print Assumptions C97_descending_refuted.
Print Assumptions C97_small_thresholds_refuted.
Print Assumptions C97_realizations_refuted.
