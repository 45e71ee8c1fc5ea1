(** C88: the texture of a field of zeros and ones. *)
From Coq Require Import Lia.
From Verif Require Import Base Model_Nbhood Spec_Nbhood Proofs_Nbhood Props_Nbhood Model_Texture.
From Verif Require Props_Dist.
From Coq Require Import Lqa.
Local Open Scope Q_scope.

(** * Specification *)
Definition zeros_and_ones (h w : Z) (d : grid Q) : Prop := forall i j, (0 <= i < h)%Z -> (0 <= j < w)%Z -> d i j == 0 \/ d i j == 1.
(** 1 if the cell belongs to the domain and holds 0. *)
Definition clear (h w : Z) (d : grid Q) (i j : Z) : Q := if inside h w i j then (if d i j =? 0 then 1 else 0) else 0.
(** How many of the four neighbours of a cell hold 0; beyond the edge there is none. *)
Definition open_sides (h w : Z) (d : grid Q) (i j : Z) : Q := clear h w d (i - 1) j + clear h w d (i + 1) j + clear h w d i (j - 1) + clear h w d i (j + 1).
(** Sum over the cells of the square window that belong to the domain and hold 1. *)
Definition over_ones (h w r : Z) (d : grid Q) (f : grid Q) (y x : Z) : Q := square_total 0 h w r (fun i j => if d i j =? 0 then 0 else f i j) y x.
Definition texture_ratio (h w r : Z) (d : grid Q) (y x : Z) : Q := over_ones h w r d (open_sides h w d) y x / (4 * over_ones h w r d (fun _ _ => 1) y x).

Lemma nearest_id n i : (0 <= i < n)%Z -> nearest n i = i.
Proof. intro H. unfold nearest. lia. Qed.
Lemma inside_iff h w i j : (0 <= i < h)%Z -> (0 <= j < w)%Z -> inside h w i j = true.
Proof. intros. apply inside_true. split; assumption. Qed.
Lemma side h w d i j i' j' : zeros_and_ones h w d -> (0 <= i < h)%Z -> (0 <= j < w)%Z -> d i j == 1 -> (inside h w i' j' = true \/ (nearest h i' = i /\ nearest w j' = j /\ inside h w i' j' = false)) ->
  Qabs (d i j - d (nearest h i') (nearest w j')) == clear h w d i' j'.
Proof.
  intros B I J D [C|(A1 & A2 & C)]; unfold clear; rewrite C.
  - apply inside_true in C. destruct C as [C1 C2]. rewrite !nearest_id by assumption. destruct (B i' j' C1 C2) as [E|E]; rewrite D, E; destruct (Qeqb_spec (d i' j') 0) as [Q|Q]; try (exfalso; lra); reflexivity.
  - rewrite A1, A2, D. reflexivity.
Qed.
Lemma abs_sym x y : Qabs (x - y) == Qabs (y - x).
Proof. rewrite <- Qabs_opp. apply Qabs_wd. ring. Qed.
Lemma transitions_open h w d i j : zeros_and_ones h w d -> (0 <= i < h)%Z -> (0 <= j < w)%Z ->
  transitions h w d i j == (if d i j =? 0 then 0 else open_sides h w d i j).
Proof.
  intros B I J. unfold transitions. cbv zeta. destruct (B i j I J) as [E|E].
  - destruct (Qltb_spec 0 (d i j)) as [L|L]; [lra|]. destruct (Qeqb_spec (d i j) 0); [reflexivity|contradiction].
  - destruct (Qltb_spec 0 (d i j)) as [L|L]; [|lra]. destruct (Qeqb_spec (d i j) 0) as [Q|Q]; [lra|]. unfold edge_padded, open_sides.
    replace (i + 1 - 1)%Z with i by lia. replace (j + 1 - 1)%Z with j by lia. replace (j + 1 + 1 - 1)%Z with (j + 1)%Z by lia. replace (i + 1 + 1 - 1)%Z with (i + 1)%Z by lia.
    rewrite <- (side h w d i j (i - 1) j B I J E), <- (side h w d i j (i + 1) j B I J E), <- (side h w d i j i (j - 1) B I J E), <- (side h w d i j i (j + 1) B I J E).
    + rewrite (nearest_id h i I), (nearest_id w j J). rewrite (abs_sym (d i (nearest w (j + 1))) (d i j)), (abs_sym (d (nearest h (i + 1)) j) (d i j)). ring.
    + destruct (Z.ltb_spec (j + 1) w); [left; apply inside_iff; lia|right]. unfold nearest, inside. repeat split; lia.
    + destruct (Z.leb_spec 0 (j - 1)); [left; apply inside_iff; lia|right]. unfold nearest, inside. repeat split; lia.
    + destruct (Z.ltb_spec (i + 1) h); [left; apply inside_iff; lia|right]. unfold nearest, inside. repeat split; lia.
    + destruct (Z.leb_spec 0 (i - 1)); [left; apply inside_iff; lia|right]. unfold nearest, inside. repeat split; lia.
Qed.
Lemma square_ext h w r g g' y x : (forall i j, (0 <= i < h)%Z -> (0 <= j < w)%Z -> (y - r <= i <= y + r)%Z -> (x - r <= j <= x + r)%Z -> g i j == g' i j) -> square_total 0 h w r g y x == square_total 0 h w r g' y x.
Proof.
  intro H. unfold square_total. apply zsum_ext. intros i Hi. apply zsum_ext. intros j Hj. unfold value. destruct (inside h w i j) eqn:E; [|reflexivity]. apply inside_true in E. apply H; lia.
Qed.
Lemma square_le h w r g g' y x : (forall i j, (0 <= i < h)%Z -> (0 <= j < w)%Z -> (y - r <= i <= y + r)%Z -> (x - r <= j <= x + r)%Z -> g i j <= g' i j) -> square_total 0 h w r g y x <= square_total 0 h w r g' y x.
Proof.
  intro H. unfold square_total. apply zsum_le. intros i Hi. apply zsum_le. intros j Hj. unfold value. destruct (inside h w i j) eqn:E; [|lra]. apply inside_true in E. apply H; lia.
Qed.
Lemma square_scale h w r c g y x : square_total 0 h w r (fun i j => c * g i j) y x == c * square_total 0 h w r g y x.
Proof.
  unfold square_total. rewrite <- zsum_scale. apply zsum_ext. intros i _. rewrite <- zsum_scale. apply zsum_ext. intros j _. unfold value. destruct (inside h w i j); ring.
Qed.
Lemma square_nonneg h w r g y x : (forall i j, (0 <= i < h)%Z -> (0 <= j < w)%Z -> 0 <= g i j) -> 0 <= square_total 0 h w r g y x.
Proof. intro H. unfold square_total. apply zsum_nonneg. intros i _. apply zsum_nonneg. intros j _. unfold value. destruct (inside h w i j) eqn:E; [|lra]. apply inside_true in E. apply H; lia. Qed.
Lemma square_zero h w r g y x : (forall i j, (0 <= i < h)%Z -> (0 <= j < w)%Z -> (y - r <= i <= y + r)%Z -> (x - r <= j <= x + r)%Z -> g i j == 0) -> square_total 0 h w r g y x == 0.
Proof. intro H. unfold square_total. apply zsum_zero. intros i Hi. apply zsum_zero. intros j Hj. unfold value. destruct (inside h w i j) eqn:E; [|reflexivity]. apply inside_true in E. apply H; lia. Qed.
Lemma nb_sum_spec r h w d : (0 < h)%Z -> (0 < w)%Z -> (0 < r)%Z -> exists s, nb_sum r h w d = Ok s /\ forall y x, (0 <= y < h)%Z -> (0 <= x < w)%Z -> s y x == square_total 0 h w r d y x.
Proof.
  intros Hh Hw Hr. destruct (C36_sum Square h w r (fun _ _ => false) None Hh Hw Hr d false) as (out & E & P). unfold nb_sum. rewrite E. cbn [bind]. eexists. split; [reflexivity|]. intros y x Y X. cbv beta. destruct (P y x Y X) as (v & -> & V). cbn [fst]. rewrite V. unfold value_total. rewrite <- square_total_total. apply square_ext. intros. reflexivity.
Qed.
Lemma over_ones_pos h w r d y x : (0 < r)%Z -> (0 <= y < h)%Z -> (0 <= x < w)%Z -> ~ d y x == 0 -> 0 < over_ones h w r d (fun _ _ => 1) y x.
Proof.
  intros Hr Y X D. unfold over_ones. assert (A : 0 <= square_total 0 h w r (fun i j => if d i j =? 0 then 0 else 1) y x).
  { apply square_nonneg. intros i j _ _. destruct (d i j =? 0); lra. }
  destruct (Qeq_dec (square_total 0 h w r (fun i j => if d i j =? 0 then 0 else 1) y x) 0) as [E|E]; [|lra]. exfalso. unfold square_total in E.
  assert (NN : forall i j, 0 <= value 0 h w (fun i j => if d i j =? 0 then 0 else 1) i j) by (intros i j; unfold value; destruct (inside h w i j); [destruct (d i j =? 0)|]; lra).
  assert (E1 := zsum_zero_inv _ _ _ (fun i _ => zsum_nonneg _ _ _ (fun j _ => NN i j)) E y ltac:(lia)). cbv beta in E1. assert (E2 := zsum_zero_inv _ _ _ (fun j _ => NN y j) E1 x ltac:(lia)). unfold value in E2. rewrite inside_iff in E2 by assumption. destruct (Qeqb_spec (d y x) 0); [contradiction|lra].
Qed.

(** * C88 *)
(** Where the field is 1 the ratio is the number of neighbours with 0 of the cells with 1 in the window, relative to four
    times the number of those cells; where it is 0 the ratio is 1. *)
Theorem C88_ratio r h w d : (0 < h)%Z -> (0 < w)%Z -> (0 < r)%Z -> zeros_and_ones h w d ->
  exists g, ratio r h w d = Ok g /\ forall y x, (0 <= y < h)%Z -> (0 <= x < w)%Z ->
    (d y x == 0 -> g y x == 1) /\ (d y x == 1 -> 0 < over_ones h w r d (fun _ _ => 1) y x /\ g y x == texture_ratio h w r d y x).
Proof.
  intros Hh Hw Hr B. unfold ratio. destruct (nb_sum_spec r h w d Hh Hw Hr) as (s & -> & S'). destruct (nb_sum_spec r h w (transitions h w d) Hh Hw Hr) as (a & -> & A'). cbn [bind]. eexists. split; [reflexivity|]. intros y x Y X. cbv beta. split; intro E.
  - destruct (Qltb_spec 0 (d y x)); [lra|reflexivity].
  - destruct (Qltb_spec 0 (d y x)) as [L|L]; [|lra]. assert (P : 0 < over_ones h w r d (fun _ _ => 1) y x) by (apply over_ones_pos; try assumption; lra). split; [exact P|].
    unfold texture_ratio. assert (E1 : s y x == over_ones h w r d (fun _ _ => 1) y x).
    { rewrite S' by assumption. apply square_ext. intros i j I J _ _. destruct (B i j I J) as [Q|Q]; rewrite Q; destruct (Qeqb_spec (d i j) 0); try reflexivity; exfalso; lra. }
    assert (E2 : a y x == over_ones h w r d (open_sides h w d) y x). { rewrite A' by assumption. apply square_ext. intros i j I J _ _. apply transitions_open; assumption. }
    rewrite E1, E2. reflexivity.
Qed.
Lemma clear_bound h w d i j : 0 <= clear h w d i j <= 1.
Proof. unfold clear. destruct (inside h w i j); [destruct (d i j =? 0)|]; lra. Qed.
Lemma open_bound h w d i j : 0 <= open_sides h w d i j <= 4.
Proof. unfold open_sides. pose proof (clear_bound h w d (i - 1) j). pose proof (clear_bound h w d (i + 1) j). pose proof (clear_bound h w d i (j - 1)). pose proof (clear_bound h w d i (j + 1)). lra. Qed.
(** Between 0 and 1. *)
Theorem C88_ratio_range r h w d g y x : (0 < r)%Z -> zeros_and_ones h w d -> ratio r h w d = Ok g -> (0 <= y < h)%Z -> (0 <= x < w)%Z -> 0 <= g y x <= 1.
Proof.
  intros Hr B G Y X. destruct (C88_ratio r h w d ltac:(lia) ltac:(lia) Hr B) as (g' & E & P). rewrite G in E. apply Ok_inj in E. subst g'. destruct (P y x Y X) as [P0 P1]. destruct (B y x Y X) as [E|E]; [rewrite (P0 E); lra|].
  destruct (P1 E) as [Q V]. rewrite V. unfold texture_ratio.
  assert (A : 0 <= over_ones h w r d (open_sides h w d) y x). { unfold over_ones. apply square_nonneg. intros i j _ _. pose proof (open_bound h w d i j). destruct (d i j =? 0); lra. }
  assert (C : over_ones h w r d (open_sides h w d) y x <= 4 * over_ones h w r d (fun _ _ => 1) y x). { unfold over_ones. rewrite <- square_scale. apply square_le. intros i j _ _ _ _. pose proof (open_bound h w d i j). destruct (d i j =? 0); lra. }
  split; [apply Qle_shift_div_l|apply Qle_shift_div_r]; lra.
Qed.
(** 0 where the window lies within one area of ones, 1 where no cell with 1 of the window touches another or the edge of the domain. *)
Theorem C88_smooth r h w d g y x : (0 < r)%Z -> zeros_and_ones h w d -> ratio r h w d = Ok g -> (0 <= y < h)%Z -> (0 <= x < w)%Z ->
  (forall i j, (0 <= i < h)%Z -> (0 <= j < w)%Z -> (y - r - 1 <= i <= y + r + 1)%Z -> (x - r - 1 <= j <= x + r + 1)%Z -> d i j == 1) -> g y x == 0.
Proof.
  intros Hr B G Y X A. destruct (C88_ratio r h w d ltac:(lia) ltac:(lia) Hr B) as (g' & E & P). rewrite G in E. apply Ok_inj in E. subst g'. destruct (P y x Y X) as [_ P1]. destruct (P1 (A y x Y X ltac:(lia) ltac:(lia))) as [Q V]. rewrite V. unfold texture_ratio.
  assert (Z0 : over_ones h w r d (open_sides h w d) y x == 0).
  { unfold over_ones. apply square_zero. intros i j I J I' J'. assert (C : forall a b, (i - 1 <= a <= i + 1)%Z -> (j - 1 <= b <= j + 1)%Z -> clear h w d a b == 0).
    { intros a b HA HB. unfold clear. destruct (inside h w a b) eqn:IN; [|reflexivity]. apply inside_true in IN. pose proof (A a b (proj1 IN) (proj2 IN) ltac:(lia) ltac:(lia)) as D. destruct (Qeqb_spec (d a b) 0); [lra|reflexivity]. }
    destruct (d i j =? 0); [reflexivity|]. unfold open_sides. rewrite !C by lia. ring. }
  rewrite Z0. unfold Qdiv. ring.
Qed.
Theorem C88_rough r h w d g y x : (0 < r)%Z -> zeros_and_ones h w d -> ratio r h w d = Ok g -> (0 <= y < h)%Z -> (0 <= x < w)%Z ->
  (forall i j, (0 <= i < h)%Z -> (0 <= j < w)%Z -> (y - r <= i <= y + r)%Z -> (x - r <= j <= x + r)%Z -> d i j == 1 ->
     (0 < i < h - 1)%Z /\ (0 < j < w - 1)%Z /\ d (i - 1)%Z j == 0 /\ d (i + 1)%Z j == 0 /\ d i (j - 1)%Z == 0 /\ d i (j + 1)%Z == 0) -> g y x == 1.
Proof.
  intros Hr B G Y X A. destruct (C88_ratio r h w d ltac:(lia) ltac:(lia) Hr B) as (g' & E & P). rewrite G in E. apply Ok_inj in E. subst g'. destruct (P y x Y X) as [P0 P1]. destruct (B y x Y X) as [E|E]; [exact (P0 E)|]. destruct (P1 E) as [Q V]. rewrite V. unfold texture_ratio.
  assert (C : over_ones h w r d (open_sides h w d) y x == 4 * over_ones h w r d (fun _ _ => 1) y x).
  { unfold over_ones. rewrite <- square_scale. apply square_ext. intros i j I J I' J'. destruct (Qeqb_spec (d i j) 0) as [D|D]; [ring|]. destruct (B i j I J) as [D1|D1]; [contradiction|]. destruct (A i j I J I' J' D1) as (HI & HJ & N1 & N2 & N3 & N4).
    assert (CL : forall a b, inside h w a b = true -> d a b == 0 -> clear h w d a b == 1) by (intros a b IN Z0; unfold clear; rewrite IN; destruct (Qeqb_spec (d a b) 0); [reflexivity|contradiction]).
    unfold open_sides. rewrite !CL; try (apply inside_iff; lia); try assumption. ring. }
  rewrite C. field. lra.
Qed.
(** The result is the share of the realizations whose ratio is above the threshold. *)
Lemma binary_iff h w d : binary h w d = true <-> zeros_and_ones h w d.
Proof.
  unfold binary. rewrite forallb_forall. split.
  - intros H i j I J. specialize (H (i, j) (proj2 (indices_in h w i j) (conj I J))). cbn [fst snd] in H. apply orb_true_iff in H. destruct H as [H|H]; apply Qeqb_eq in H; auto.
  - intros H [i j] IN. apply indices_in in IN. cbn [fst snd]. apply orb_true_iff. destruct (H i j (proj1 IN) (proj2 IN)) as [E|E]; [left|right]; apply Qeqb_eq; exact E.
Qed.
Lemma mapM_ok {A B} (f : A -> result B) l : (forall x, In x l -> exists y, f x = Ok y) -> exists r, mapM f l = Ok r.
Proof.
  induction l as [|x l IH]; intro H; [eexists; reflexivity|]. cbn [mapM]. destruct (H x (or_introl eq_refl)) as [y ->]. cbn [bind]. destruct IH as [r ->]; [intros z Z0; apply H; right; exact Z0|]. eexists. reflexivity.
Qed.
Lemma mapM_forall2' {A B} (f : A -> result B) l : forall r, mapM f l = Ok r -> Forall2 (fun x y => f x = Ok y) l r.
Proof.
  induction l as [|x l IH]; intros r H; cbn [mapM] in H; [apply Ok_inj in H; subst; constructor|]. destruct (f x) as [y|] eqn:E; [|discriminate]. cbn [bind] in H. destruct (mapM f l) as [r'|]; [|discriminate]. cbn [bind] in H. apply Ok_inj in H. subst r. constructor; [exact E|]. apply IH. reflexivity.
Qed.
Theorem C88_texture r h w threshold ds : (0 < h)%Z -> (0 < w)%Z -> (0 < r)%Z -> (forall d, In d ds -> zeros_and_ones h w d) ->
  exists out rs, field_texture r h w threshold ds = Ok out /\ Forall2 (fun d g => ratio r h w d = Ok g) ds rs /\
    forall y x, out y x * Qlen ds == Qlen (filter (fun g : grid Q => threshold <? g y x) rs) \/ ds = [].
Proof.
  intros Hh Hw Hr B. unfold field_texture. rewrite (proj2 (forallb_forall _ _)) by (intros d D; apply binary_iff, B, D).
  destruct (mapM_ok (ratio r h w) ds) as [rs R]. { intros d D. destruct (C88_ratio r h w d Hh Hw Hr (B d D)) as (g & G & _). exists g. exact G. }
  rewrite R. cbn [bind]. eexists _, rs. split; [reflexivity|]. pose proof (mapM_forall2' _ _ _ R) as F. split; [exact F|]. intros y x. destruct ds as [|d0 ds0]; [right; reflexivity|left].
  assert (L : Qlen rs == Qlen (d0 :: ds0)). { unfold Qlen. clear -F. induction F; cbn [length]; [reflexivity|]. rewrite !Nat2Z.inj_succ, <- !Z.add_1_r, !inject_Z_plus, IHF. reflexivity. }
  rewrite <- L. assert (N : 0 < Qlen rs) by (rewrite L; apply Qlen_pos; discriminate).
  assert (S' : qsum (map (fun g : grid Q => if threshold <? g y x then 1 else 0) rs) == Qlen (filter (fun g : grid Q => threshold <? g y x) rs)).
  { clear. induction rs as [|g rs IH]; [reflexivity|]. cbn [map filter]. cbn [qsum fold_right] in *. destruct (threshold <? g y x).
    - rewrite Qlen_cons. change (fold_right Qplus 0 (map (fun g0 : grid Q => if threshold <? g0 y x then 1 else 0) rs)) with (qsum (map (fun g0 : grid Q => if threshold <? g0 y x then 1 else 0) rs)). rewrite IH. ring.
    - change (fold_right Qplus 0 (map (fun g0 : grid Q => if threshold <? g0 y x then 1 else 0) rs)) with (qsum (map (fun g0 : grid Q => if threshold <? g0 y x then 1 else 0) rs)). rewrite IH. ring. }
  rewrite S'. field. lra.
Qed.
(** Any other value is refused. *)
Theorem C88_refused r h w threshold ds d i j : In d ds -> (0 <= i < h)%Z -> (0 <= j < w)%Z -> ~ d i j == 0 -> ~ d i j == 1 -> field_texture r h w threshold ds = Err ValueError.
Proof.
  intros D I J A B. unfold field_texture. destruct (forallb (binary h w) ds) eqn:E; [|reflexivity]. exfalso. rewrite forallb_forall in E. specialize (E d D). apply binary_iff in E. destruct (E i j I J); contradiction.
Qed.
(** The edge of the domain counts as smooth: a lone cell in the corner has ratio 1/2, in the middle 1. *)
Theorem C88_edge_refuted : ~ (forall r h w d g y x, (0 < r)%Z -> zeros_and_ones h w d -> ratio r h w d = Ok g -> (0 <= y < h)%Z -> (0 <= x < w)%Z ->
  (forall i j, (0 <= i < h)%Z -> (0 <= j < w)%Z -> (i, j) <> (y, x) -> d i j == 0) -> g y x == 1).
Proof.
  intro H. set (d := fun i j : Z => if ((i =? 0) && (j =? 0))%Z then 1 else 0). 
  assert (V : match ratio 1 3 3 d with Ok g => Qeq_bool (g 0%Z 0%Z) (1 # 2) | Err _ => false end = true) by (vm_compute; reflexivity).
  destruct (ratio 1 3 3 d) as [g|e] eqn:E; [|discriminate].
  specialize (H 1%Z 3%Z 3%Z d g 0%Z 0%Z eq_refl). assert (Q : g 0%Z 0%Z == 1).
  { apply H; try lia; [|exact E|].
    - intros i j _ _. unfold d. destruct (_ && _)%bool; [right|left]; reflexivity.
    - intros i j I J N. unfold d. destruct (Z.eqb_spec i 0) as [->|]; [|reflexivity]. destruct (Z.eqb_spec j 0) as [->|]; [congruence|reflexivity]. }
  apply Qeq_bool_iff in V. rewrite V in Q. discriminate.
Qed.

(** * Case *)
Example C88_case : match field_texture 1 3 4 (2 # 5) [fun i j => if (j <? 2)%Z then 1 else 0; fun i j => if ((i =? 1) && (j =? 1))%Z then 1 else 0] with Ok g => (Qeq_bool (g 1%Z 1%Z) (1 # 2) && Qeq_bool (g 0%Z 3%Z) 1)%bool | Err _ => false end = true.
Proof. vm_compute. reflexivity. Qed.

Print Assumptions C88_ratio.
Print Assumptions C88_ratio_range.
Print Assumptions C88_smooth.
Print Assumptions C88_rough.
Print Assumptions C88_texture.
Print Assumptions C88_refused.
Print Assumptions C88_edge_refuted.
