(** C136: night values of UV index are set to zero. *)
From Verif Require Import Base Model_NightMask.
Local Open Scope string_scope.
Local Open Scope list_scope.
Local Open Scope Q_scope.

(** The index along the dimension of that name (0 if there is none). *)
Fixpoint along (dims : list (string * nat)) (idx : list nat) (k : string) : nat :=
  match dims, idx with d :: ds, i :: is => if String.eqb (fst d) k then i else along ds is k | _, _ => 0%nat end.
Definition inside (dims : list (string * nat)) (idx : list nat) : Prop := Forall2 (fun d i => (i < snd d)%nat) dims idx.
(** Whether it is night depends on the time and the place only. *)
Definition by_place (night : (string -> nat) -> bool) : Prop := forall f g, f "time" = g "time" -> f "y" = g "y" -> f "x" = g "x" -> f "spot_index" = g "spot_index" -> night f = night g.
Definition spatial (k : string) : Prop := k = "y" \/ k = "x" \/ k = "spot_index".
(** The order the command needs: the time, if it has several points, and the dimensions of space come last, in that order. *)
Definition grid_last (dims : list (string * nat)) (others : list (string * nat)) : Prop :=
  (forall d, In d others -> ~ spatial (fst d) /\ (fst d = "time" -> snd d = 1%nat)) /\
  (exists time, (time = [] \/ exists n, time = [("time", n)] /\ n <> 1%nat /\ ~ In "time" (map fst others)) /\
    exists space, ((exists h w, space = [("y", h); ("x", w)]) \/ (exists n, space = [("spot_index", n)])) /\ dims = others ++ time ++ space).

Lemma position_along dims idx k : position dims idx k = along dims idx k.
Proof. revert idx. unfold position. induction dims as [|d ds IH]; intros [|i is]; cbn; try reflexivity. destruct (String.eqb (fst d) k); [reflexivity|apply IH]. Qed.
Lemma size_app a b k : size_of (a ++ b) k = match size_of a k with Some n => Some n | None => size_of b k end.
Proof. unfold size_of. induction a as [|d a IH]; [reflexivity|]. cbn. destruct (String.eqb (fst d) k); [reflexivity|exact IH]. Qed.
Lemma size_none a k : (forall d, In d a -> fst d <> k) -> size_of a k = None.
Proof. unfold size_of. induction a as [|d a IH]; intro H; [reflexivity|]. cbn. destruct (String.eqb_spec (fst d) k) as [E|_]; [elim (H d); [now left|exact E]|]. apply IH. intros; apply H; now right. Qed.
Lemma size_time a : (forall d, In d a -> fst d = "time" -> snd d = 1%nat) -> size_of a "time" = None \/ size_of a "time" = Some 1%nat.
Proof.
  unfold size_of. induction a as [|d a IH]; intro H; [now left|]. cbn. destruct (String.eqb_spec (fst d) "time") as [E|_]; [right; cbn; f_equal; apply H; [now left|exact E]|].
  apply IH. intros; apply H; [now right|assumption].
Qed.
Lemma mask_dims_last dims others : grid_last dims others -> exists m, mask_dims dims = m /\ dims = others ++ m /\ (forall k, k = "time" \/ spatial k -> forall d, In d others -> fst d = k -> k = "time" /\ snd d = 1%nat /\ ~ In "time" (map fst m)).
Proof.
  intros (HO & time & HT & space & HS & ->).
  assert (SP : forall k, spatial k -> size_of others k = None). { intros k S. apply size_none. intros d Hd <-. now apply (HO d Hd). }
  assert (TO := size_time others (fun d Hd => proj2 (HO d Hd))).
  exists (time ++ space). split; [|split; [reflexivity|]].
  - unfold mask_dims. rewrite !size_app, (SP "y"), (SP "x"), (SP "spot_index") by (unfold spatial; tauto).
    destruct HT as [->|(n & -> & N1 & NT)].
    + destruct TO as [->| ->]; destruct HS as [(h & w & ->)|(n & ->)]; reflexivity.
    + rewrite (size_none others "time") by (intros d Hd E; apply NT; rewrite <- E; now apply in_map). destruct (Nat.eqb_spec n 1); [contradiction|].
      destruct HS as [(h & w & ->)|(q & ->)]; cbn; destruct (Nat.eqb_spec n 1); try contradiction; reflexivity.
  - intros k K d Hd E. destruct (HO d Hd) as [A B]. rewrite E in A. destruct K as [->|K]; [|contradiction]. split; [reflexivity|]. split; [apply B, E|].
    rewrite map_app, in_app_iff. destruct HT as [->|(n & -> & _ & NT)].
    + intros [[]|X]. destruct HS as [(h & w & ->)|(q & ->)]; cbn in X; repeat destruct X as [X|X]; try discriminate X; destruct X.
    + elim NT. rewrite <- E. now apply in_map.
Qed.
Lemma fits_self m s : fits m (m ++ s) = true.
Proof. induction m as [|a m IH]; [reflexivity|]. cbn. now rewrite Nat.eqb_refl, IH. Qed.
Lemma at_mask_inside m idx : inside m idx -> map (fun p => if (fst p =? 1)%nat then 0%nat else snd p) (combine (map snd m) idx) = idx.
Proof. intro H. induction H as [|d i m idx L H IH]; [reflexivity|]. cbn. rewrite IH. f_equal. destruct (Nat.eqb_spec (snd d) 1); [lia|reflexivity]. Qed.
Lemma along_app a b i j k : length a = length i -> along (a ++ b) (i ++ j) k = if existsb (fun d => String.eqb (fst d) k) a then along a i k else along b j k.
Proof. revert i. induction a as [|d a IH]; intros [|x i] L; try discriminate L; [reflexivity|]. cbn. destruct (String.eqb (fst d) k); [reflexivity|]. apply IH. now injection L. Qed.
Lemma inside_split a b idx : inside (a ++ b) idx -> exists i j, idx = i ++ j /\ inside a i /\ inside b j.
Proof. intro H. apply Forall2_app_inv_l in H as (i & j & A & B & ->). eauto. Qed.
Lemma inside_len a i : inside a i -> length a = length i. Proof. intro H. induction H; [reflexivity|]. cbn. now f_equal. Qed.
Lemma along_zero a i k : inside a i -> (forall d, In d a -> fst d = k -> snd d = 1%nat) -> along a i k = 0%nat.
Proof.
  intros H. induction H as [|d x a i L H IH]; intro O; [reflexivity|]. cbn. destruct (String.eqb_spec (fst d) k) as [E|_].
  - rewrite (O d (or_introl eq_refl) E) in L. lia.
  - apply IH. intros e He. apply O. now right.
Qed.
Lemma along_none a i k : ~ In k (map fst a) -> along a i k = 0%nat.
Proof. revert i. induction a as [|d a IH]; intros i H; [reflexivity|]. destruct i; [reflexivity|]. cbn. destruct (String.eqb_spec (fst d) k) as [E|_]; [elim H; now left|]. apply IH. intro X. apply H. now right. Qed.

(** C136: where it is night at the time and place of a value it becomes zero, and everywhere else it stays what it was; times with one point, realizations and thresholds come before the grid. *)
Theorem C136_values night c others : by_place night -> grid_last (c_dims c) others -> (c_probability c = true -> contains_above (c_name c) = true) ->
  exists out, apply_night_mask night c = Ok out /\ c_dims out = c_dims c /\
    forall idx, inside (c_dims c) idx -> c_vals out idx = if night (along (c_dims c) idx) then 0 else c_vals c idx.
Proof.
  intros BP GL NM. destruct (mask_dims_last _ _ GL) as (m & M & D & O). unfold apply_night_mask. rewrite M.
  assert (X : (c_probability c && negb (contains_above (c_name c)))%bool = false) by (destruct (c_probability c); [rewrite NM by reflexivity|]; reflexivity). rewrite X. cbv zeta.
  assert (B : broadcastable (map snd m) (map snd (c_dims c)) = true) by (unfold broadcastable; rewrite D, map_app, rev_app_distr; apply fits_self). rewrite B. cbn [negb].
  eexists. split; [reflexivity|]. split; [reflexivity|]. cbn [c_vals]. intros idx IN. rewrite D in IN. apply inside_split in IN as (i & j & -> & IA & IB).
  assert (LI := inside_len _ _ IA). assert (LJ := inside_len _ _ IB).
  assert (AM : at_mask (map snd m) (i ++ j) = j).
  { unfold at_mask. rewrite app_length, map_length, LJ. replace (length i + length j - length j)%nat with (length i) by lia. rewrite skipn_app, skipn_all, Nat.sub_diag. cbn [app skipn]. apply at_mask_inside. exact IB. }
  rewrite AM. assert (EQ : forall k, k = "time" \/ spatial k -> position m j k = along (c_dims c) (i ++ j) k).
  { intros k K. rewrite position_along, D, along_app by exact LI. destruct (existsb _ others) eqn:E; [|reflexivity].
    apply existsb_exists in E as (d & Hd & E). apply String.eqb_eq in E. destruct (O k K d Hd E) as (-> & S1 & NT). rewrite along_none by exact NT. symmetry. apply along_zero; [exact IA|].
    intros e He Ee. now apply (O "time" (or_introl eq_refl) e He Ee). }
  rewrite (BP (position m j) (along (c_dims c) (i ++ j))); [reflexivity| | | |]; apply EQ; unfold spatial; tauto.
Qed.
(** C136: probabilities other than of exceeding a threshold are refused, and nothing else is as long as the grid comes last. *)
Theorem C136_refused night c others : grid_last (c_dims c) others ->
  (apply_night_mask night c = Err ValueError <-> c_probability c = true /\ contains_above (c_name c) = false) /\ (forall e, apply_night_mask night c = Err e -> e = ValueError).
Proof.
  intro GL. destruct (mask_dims_last _ _ GL) as (m & M & D & _). unfold apply_night_mask. rewrite M.
  assert (B : broadcastable (map snd m) (map snd (c_dims c)) = true) by (unfold broadcastable; rewrite D, map_app, rev_app_distr; apply fits_self).
  destruct (c_probability c), (contains_above (c_name c)); cbn [andb negb]; cbv zeta; rewrite ?B; cbn [negb]; split; try (intros e X; congruence); split; intuition congruence.
Qed.
(** C136: nothing is missing in the result: where the input is masked the value stored under the mask comes out as data. *)
Theorem C136_missing night c out : apply_night_mask night c = Ok out -> forall idx, c_masked out idx = false.
Proof.
  unfold apply_night_mask. destruct (_ && _)%bool; [discriminate|]. cbv zeta. destruct (negb _); [discriminate|]. intros H idx. assert (E : forall A (x y : A), Ok x = Ok y -> x = y) by congruence. apply E in H. now subst out.
Qed.
Theorem C136_missing_refuted : ~ (forall night c out idx, by_place night -> apply_night_mask night c = Ok out -> inside (c_dims c) idx -> night (along (c_dims c) idx) = false -> c_masked out idx = c_masked c idx).
Proof.
  intro H. specialize (H (fun _ => false) {| c_name := "uv_index"; c_probability := false; c_dims := [("y", 1%nat); ("x", 1%nat)]; c_vals := fun _ => 10; c_masked := fun _ => true |} _ [0%nat; 0%nat] (fun _ _ _ _ _ _ => eq_refl) eq_refl).
  cbn in H. discriminate H; [|reflexivity]. repeat constructor; cbn; lia.
Qed.
(** C136: the order of the dimensions matters: on a square grid with x before y, or with as many realizations after the times, the wrong values are set to zero without an error. *)
Theorem C136_order_refuted : ~ (forall night c out idx, by_place night -> apply_night_mask night c = Ok out -> inside (c_dims c) idx -> c_vals out idx = if night (along (c_dims c) idx) then 0 else c_vals c idx).
Proof.
  intro H. assert (X : inside [("x", 2%nat); ("y", 2%nat)] [1%nat; 0%nat]) by (repeat constructor; cbn; lia).
  pose proof (H (fun f => (f "y" =? 0)%nat) {| c_name := "uv_index"; c_probability := false; c_dims := [("x", 2%nat); ("y", 2%nat)]; c_vals := fun _ => 1; c_masked := fun _ => false |} _ [1%nat; 0%nat]
    (fun f g _ (E : f "y" = g "y") _ _ => f_equal (fun n => (n =? 0)%nat) E) eq_refl X) as Y. vm_compute in Y. discriminate Y.
Qed.
Theorem C136_realizations_refuted : exists night c out idx, by_place night /\ apply_night_mask night c = Ok out /\ inside (c_dims c) idx /\ map fst (c_dims c) = ["time"; "realization"; "y"; "x"] /\
  night (along (c_dims c) idx) = false /\ c_vals c idx = 1 /\ c_vals out idx = 0.
Proof.
  exists (fun f => (f "time" =? 0)%nat), {| c_name := "uv_index"; c_probability := false; c_dims := [("time", 2%nat); ("realization", 2%nat); ("y", 1%nat); ("x", 1%nat)]; c_vals := fun _ => 1; c_masked := fun _ => false |}.
  eexists. exists [1%nat; 0%nat; 0%nat; 0%nat]. split; [exact (fun f g (E : f "time" = g "time") _ _ _ => f_equal (fun n => (n =? 0)%nat) E)|]. split; [reflexivity|]. split; [repeat constructor; cbn; lia|]. repeat split.
Qed.
(** C136: a dimension of one point is repeated: with the realizations last, the mask's columns are laid along the realizations and its one row along the columns. *)
Theorem C136_one_row_refuted : exists night c out, by_place night /\ apply_night_mask night c = Ok out /\ map fst (c_dims c) = ["y"; "x"; "realization"] /\
  night (along (c_dims c) [0; 0; 1]%nat) = true /\ c_vals out [0; 0; 1]%nat = c_vals c [0; 0; 1]%nat /\ c_vals c [0; 0; 1]%nat = 1 /\
  night (along (c_dims c) [0; 1; 0]%nat) = false /\ c_vals out [0; 1; 0]%nat = 0 /\ c_vals c [0; 1; 0]%nat = 1.
Proof.
  exists (fun f => (f "x" =? 0)%nat), {| c_name := "uv_index"; c_probability := false; c_dims := [("y", 1%nat); ("x", 2%nat); ("realization", 2%nat)]; c_vals := fun _ => 1; c_masked := fun _ => false |}.
  eexists. split; [exact (fun f g _ _ (E : f "x" = g "x") _ => f_equal (fun n => (n =? 0)%nat) E)|]. split; [reflexivity|]. repeat split.
Qed.
Example C136_case :
  let c := {| c_name := "probability_of_uv_index_above_threshold"; c_probability := true; c_dims := [("threshold", 2%nat); ("time", 2%nat); ("y", 1%nat); ("x", 2%nat)]; c_vals := fun idx => Qn (1 + 10 * nth 0 idx 0%nat + nth 3 idx 0%nat); c_masked := fun _ => false |} in
  grid_last (c_dims c) [("threshold", 2%nat)] /\
  match apply_night_mask (fun f => ((f "time" =? 1) && (f "x" =? 0))%nat%bool) c with
  | Ok out => map (c_vals out) [[0; 0; 0; 0]; [0; 1; 0; 0]; [1; 1; 0; 0]; [1; 1; 0; 1]; [1; 0; 0; 0]]%nat = [Qn 1; 0; 0; Qn 12; Qn 11]
  | Err _ => False
  end.
Proof.
  split; [|vm_compute; reflexivity]. split.
  - intros d [<-|[]]. split; [intros [E|[E|E]]; discriminate E|intro E; discriminate E].
  - exists [("time", 2%nat)]. split; [right; exists 2%nat; split; [reflexivity|]; split; [discriminate|]; intros [E|[]]; discriminate E|]. exists [("y", 1%nat); ("x", 2%nat)]. split; [left; eauto|reflexivity].
Qed.

Print Assumptions C136_values.
Print Assumptions C136_refused.
Print Assumptions C136_missing.
Print Assumptions C136_missing_refuted.
Print Assumptions C136_order_refuted.
Print Assumptions C136_realizations_refuted.
Print Assumptions C136_one_row_refuted.
