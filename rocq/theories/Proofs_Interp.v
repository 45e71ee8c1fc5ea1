From Verif Require Import Base Interp.

(** Knots that are either repeated exactly or at least 1e-15 apart. *)
Definition coarse : list Q -> Prop := StronglySorted (fun a b => a == b \/ eps15 <= b - a).
(** [x] is not the value of a knot that occurs twice. *)
Definition not_repeated (xp : list Q) (x : Q) : Prop :=
  forall i j, (i < j < length xp)%nat -> nth i xp 0 == x -> ~ nth j xp 0 == x.

Lemma not_repeated_tail a xp x : not_repeated (a :: xp) x -> not_repeated xp x.
Proof. intros H i j Hij. apply (H (S i) (S j)). simpl; lia. Qed.
Lemma not_repeated_head a xp x b : not_repeated (a :: xp) x -> a == x -> In b xp -> ~ b == x.
Proof.
  intros H E Hb. apply (In_nth _ _ 0) in Hb as (j & Hj & <-). apply (H 0%nat (S j)); [simpl; lia|exact E].
Qed.
Lemma np_from_at_start k x0 y0 x : x == x0 -> coarse (x0 :: map fst k) -> not_repeated (x0 :: map fst k) x ->
  np_from x0 y0 k x == y0.
Proof.
  intros E HC HN. destruct k as [|[x1 y1] k]; simpl; [reflexivity|].
  inversion HC as [|? ? _ HF]; subst. inversion HF as [|? ? H1 _]; subst. simpl in H1.
  assert (N : ~ x1 == x) by (apply (not_repeated_head x0 (x1 :: map fst k)); [exact HN|lra|simpl; auto]).
  pose proof eps15_pos. destruct (Qleb_spec x1 x); [lra|]. destruct (Qeqb_spec x0 x); [reflexivity|lra].
Qed.
Lemma fast_from_np_gen k : forall x0 y0 x, x0 < x -> coarse (x0 :: map fst k) -> not_repeated (x0 :: map fst k) x ->
  fast_from x0 y0 k x == np_from x0 y0 k x.
Proof.
  pose proof eps15_pos as He.
  induction k as [|[x1 y1] k IH]; intros x0 y0 x Hx HC HN; cbn [fast_from np_from]; [reflexivity|].
  inversion HC as [|? ? HC1 HF]; subst. inversion HF as [|? ? H1 _]; subst. cbn [fst map] in *.
  destruct (Qltb_spec x1 x) as [L|L].
  - destruct (Qleb_spec x1 x); [|lra]. apply IH; trivial. eapply not_repeated_tail; eauto.
  - destruct (Qleb_spec eps15 (x1 - x0)); [|lra].
    destruct (Qleb_spec x1 x) as [L'|L'].
    + assert (E : x == x1) by lra. rewrite flerp_eq by lra. rewrite E at 1. rewrite lerp_right by lra.
      symmetry. apply np_from_at_start; trivial. eapply not_repeated_tail; eauto.
    + destruct (Qeqb_spec x0 x); [lra|]. apply flerp_eq. lra.
Qed.
Lemma fast_rec_np_gen k x : coarse (map fst k) -> not_repeated (map fst k) x -> fast_rec k x == np_interp k x.
Proof.
  destruct k as [|[x0 y0] k]; simpl; intros HC HN; [reflexivity|].
  destruct (Qltb_spec x0 x) as [H1|H1], (Qltb_spec x x0) as [H2|H2]; try lra.
  - apply fast_from_np_gen; trivial.
  - assert (E : x == x0) by lra. symmetry. apply np_from_at_start; trivial.
Qed.

Lemma spaced_coarse l : spaced l -> coarse l.
Proof. intro H. induction H as [|x l Hs IH Hf]; constructor; trivial. eapply Forall_impl; [|exact Hf]. unfold gap. intros; auto. Qed.
Lemma spaced_not_repeated l x : spaced l -> not_repeated l x.
Proof.
  intros H i j Hij E E'. apply spaced_qssorted in H. pose proof (qssorted_nth l 0 i j H Hij). lra.
Qed.

Definition rows_eq : list (list Q) -> list (list Q) -> Prop := Forall2 (Forall2 Qeq).

Lemma same_x_agree x xp fp a b : coarse xp -> Forall (not_repeated xp) x ->
  fast_interp_same_x x xp fp = Ok a -> slow_interp_same_x x xp fp = Ok b -> rows_eq a b.
Proof.
  unfold fast_interp_same_x, slow_interp_same_x. intros HC HN.
  destruct (forallb _ fp) eqn:E; [|discriminate]. intros Ha Hb. injection Ha as <-. injection Hb as <-.
  rewrite forallb_forall in E. unfold rows_eq. revert E. induction fp as [|row fp IH]; intro E; constructor.
  - specialize (E row (or_introl eq_refl)). apply Nat.eqb_eq in E. clear - HC HN E.
    induction HN as [|t x Ht HN IH]; constructor; [|exact IH].
    rewrite fast_at_rec by exact E. apply fast_rec_np_gen; rewrite map_fst_combine by lia; trivial.
  - apply IH. intros r Hr. apply E. simpl; auto.
Qed.
Lemma same_x_total x xp fp : Forall (fun r => length r = length xp) fp <->
  (exists a, fast_interp_same_x x xp fp = Ok a) /\ (exists b, slow_interp_same_x x xp fp = Ok b).
Proof.
  unfold fast_interp_same_x, slow_interp_same_x. split.
  - intro H. assert (E : forallb (fun row => (length row =? length xp)%nat) fp = true).
    { apply forallb_forall. intros r Hr. apply Nat.eqb_eq. rewrite Forall_forall in H. auto. }
    rewrite E. split; eexists; reflexivity.
  - intros [[a H] _]. destruct (forallb _ fp) eqn:E; [|discriminate].
    rewrite forallb_forall in E. apply Forall_forall. intros r Hr. apply Nat.eqb_eq. auto.
Qed.
Lemma fast_y_rows x xp fp a : fast_interp_same_y x xp fp = Ok a ->
  a = map (fun row => map (y_alone row fp) x) xp /\ Forall (fun r => length r = length fp) xp.
Proof.
  unfold fast_interp_same_y. destruct (forallb _ xp) eqn:E; [|discriminate]. intro H. injection H as <-. split.
  - apply map_ext. intro row. apply y_scan_alone. intro H. apply nondecreasing_b_iff; exact H.
  - rewrite forallb_forall in E. apply Forall_forall. intros r Hr. apply Nat.eqb_eq. auto.
Qed.
Lemma same_y_agree x xp fp a b : Forall (fun row => coarse row /\ Forall (not_repeated row) x) xp ->
  fast_interp_same_y x xp fp = Ok a -> slow_interp_same_y x xp fp = Ok b -> rows_eq a b.
Proof.
  intros HC Ha Hb. apply fast_y_rows in Ha as [-> HL]. unfold slow_interp_same_y in Hb.
  destruct (forallb _ xp); [|discriminate]. injection Hb as <-. unfold rows_eq.
  induction HC as [|row xp [HC HN] HCs IH]; [constructor|]. inversion HL; subst. constructor; [|auto].
  clear - HC HN H1. induction HN as [|t x Ht HN IH]; constructor; [|exact IH].
  rewrite y_alone_fast, fast_at_rec by lia. apply fast_rec_np_gen; rewrite map_fst_combine by lia; trivial.
Qed.
Lemma tie_witness :
  let xp := [0; 0; 1] in let fp := [[10; 20; 30]] in
  exists a b, fast_interp_same_x [0] xp fp = Ok a /\ slow_interp_same_x [0] xp fp = Ok b /\ ~ rows_eq a b.
Proof.
  do 2 eexists. split; [reflexivity|]. split; [reflexivity|].
  intro H. inversion H as [|? ? ? ? H1 _]; subst. inversion H1 as [|? ? ? ? H2 _]; subst. vm_compute in H2. discriminate.
Qed.
Lemma tie_witness_y :
  exists a b, fast_interp_same_y [0] [[0; 0; 1]] [10; 20; 30] = Ok a /\
    slow_interp_same_y [0] [[0; 0; 1]] [10; 20; 30] = Ok b /\ ~ rows_eq a b.
Proof.
  do 2 eexists. split; [reflexivity|]. split; [reflexivity|].
  intro H. inversion H as [|? ? ? ? H1 _]; subst. inversion H1 as [|? ? ? ? H2 _]; subst. vm_compute in H2. discriminate.
Qed.
Lemma nth_single_interp x xp fp a i j : fast_interp_same_y x xp fp = Ok a -> (i < length xp)%nat -> (j < length x)%nat ->
  exists v, fast_interp_same_y [nth j x 0] [nth i xp []] fp = Ok [[v]] /\ nth j (nth i a []) 0 = v.
Proof.
  intros H Hi Hj. destruct (fast_y_rows _ _ _ _ H) as [-> HL].
  rewrite nth_map_lt with (d := []) by exact Hi. rewrite nth_map_lt with (d := 0) by exact Hj.
  exists (y_alone (nth i xp []) fp (nth j x 0)). split; [|reflexivity].
  assert (E : length (nth i xp []) = length fp).
  { rewrite Forall_forall in HL. apply HL. apply nth_In; exact Hi. }
  unfold fast_interp_same_y. cbn [forallb]. apply Nat.eqb_eq in E. rewrite E. cbn [andb map].
  f_equal. f_equal. rewrite y_scan_alone by (intros _; repeat constructor). reflexivity.
Qed.
Lemma perm_interp x x' xp fp a a' : Permutation x x' ->
  fast_interp_same_y x xp fp = Ok a -> fast_interp_same_y x' xp fp = Ok a' ->
  Forall2 (fun r r' => Permutation (combine x r) (combine x' r')) a a'.
Proof.
  intros HP H H'. apply fast_y_rows in H as [-> _]. apply fast_y_rows in H' as [-> _].
  induction xp as [|row xp IH]; constructor; [|exact IH].
  assert (E : forall l, combine l (map (y_alone row fp) l) = map (fun t => (t, y_alone row fp t)) l).
  { clear. induction l; simpl; congruence. }
  rewrite !E. apply Permutation_map, HP.
Qed.
(** same value as the one-target routine of fast_interp_same_x *)
Lemma y_equals_x x xp fp a : fast_interp_same_y x xp fp = Ok a ->
  Forall2 (fun row r => exists b, fast_interp_same_x x row [fp] = Ok [b] /\ Forall2 Qeq r b) xp a.
Proof.
  intro H. apply fast_y_rows in H as [-> HL].
  induction HL as [|row xp E HL IH]; constructor; [|exact IH].
  exists (map (fast_at row fp) x). split.
  - unfold fast_interp_same_x. cbn [forallb]. rewrite E, Nat.eqb_refl. reflexivity.
  - clear. induction x; constructor; trivial. apply y_alone_fast.
Qed.
