(** Properties C74 (heights of maxima) and C75 (order of dimensions). *)
From Verif Require Import Base Proofs_Temporal Proofs_Spot Model_Manip.
From Coq Require Import Permutation Sorted.
Local Open Scope Q_scope.

(** * C74 *)
Definition value_at (i : nat) (l : level) : option Q := nth i (lv_values l) None.
Definition within (lo hi : option Q) (h : Q) : Prop := match lo with Some b => b <= h | None => True end /\ match hi with Some b => h <= b | None => True end.
Lemma omax_spec l : forall a, match fold_left omax l a with
  | None => In None (a :: l)
  | Some m => (forall v, In v (a :: l) -> exists x, v = Some x /\ x <= m) /\ exists x, In (Some x) (a :: l) /\ x == m
  end.
Proof.
  induction l as [|b l IH]; intro a; cbn [fold_left].
  - destruct a as [a|]; [|now left]. split; [|exists a; split; [now left|reflexivity]]. intros v [<-|[]]. exists a. split; [reflexivity|lra].
  - specialize (IH (omax a b)). destruct (fold_left omax l (omax a b)) as [m|].
    + destruct IH as [A (x & B & E)]. destruct (A (omax a b) (or_introl eq_refl)) as (y & Ey & Ly). destruct a as [a|]; [|discriminate]. destruct b as [b|]; [|discriminate]. cbn [omax] in *.
      apply (f_equal (fun o => match o with Some q => q | None => 0 end)) in Ey. cbn in Ey. subst y. pose proof (Q.le_max_l a b). pose proof (Q.le_max_r a b). split.
      * intros v [<-|[<-|Hv]]; [exists a|exists b|apply A; now right]; (split; [reflexivity|lra]).
      * destruct B as [B|B]; [|exists x; split; [right; now right|exact E]]. apply (f_equal (fun o => match o with Some q => q | None => 0 end)) in B. cbn in B. subst x. destruct (Q.max_spec a b) as [[_ M]|[_ M]]; rewrite M in E; [exists b|exists a]; (split; [cbn; tauto|exact E]).
    + destruct IH as [H|H]; [|right; now right]. destruct a as [a|]; [|now left]. destruct b as [b|]; [discriminate|]. right. now left.
Qed.
Lemma column_max_spec l : l <> [] -> match column_max l with
  | None => In None l
  | Some m => (forall v, In v l -> exists x, v = Some x /\ x <= m) /\ exists x, In (Some x) l /\ x == m
  end.
Proof. destruct l as [|a l]; [congruence|]. intros _. apply omax_spec. Qed.
Lemma bound_lo lo ls b l : default_bound qminl lo (map lv_height ls) = Ok b -> In l ls -> (b <= lv_height l <-> match lo with Some b => b <= lv_height l | None => True end).
Proof.
  destruct lo as [x|]; cbn [default_bound]; intros H I0; [apply Ok_inj in H; now subst|]. destruct (map lv_height ls) as [|h r] eqn:M; [discriminate|]. apply Ok_inj in H. subst b. split; [trivial|]. intros _. apply qminl_le. rewrite <- M. now apply in_map.
Qed.
Lemma bound_hi hi ls b l : default_bound qmaxl hi (map lv_height ls) = Ok b -> In l ls -> (lv_height l <= b <-> match hi with Some b => lv_height l <= b | None => True end).
Proof.
  destruct hi as [x|]; cbn [default_bound]; intros H I0; [apply Ok_inj in H; now subst|]. destruct (map lv_height ls) as [|h r] eqn:M; [discriminate|]. apply Ok_inj in H. subst b. split; [trivial|]. intros _. apply qmaxl_ge. rewrite <- M. now apply in_map.
Qed.
Lemma bound_total pick b ls : ls <> [] -> exists x, default_bound pick b (map lv_height ls) = Ok x.
Proof. destruct ls as [|l r]; [congruence|]. intros _. destruct b; cbn; eauto. Qed.
Lemma maximum_inv n ls lo hi : ls <> [] -> exists sub, (forall l, In l sub <-> In l ls /\ within lo hi (lv_height l)) /\
  maximum_in_height n ls lo hi = match sub with [] => Err ValueError | _ => Ok (map (fun i => column_max (values_of sub i)) (seq 0 n)) end.
Proof.
  intro Ne. unfold maximum_in_height. destruct (bound_total qminl lo ls Ne) as (b & Eb). destruct (bound_total qmaxl hi ls Ne) as (c & Ec). rewrite Eb, Ec. cbn [bind].
  exists (filter (fun l => ((b <=? lv_height l) && (lv_height l <=? c))%bool) ls). split; [|now destruct (filter _ ls)]. intro l. rewrite filter_In, andb_true_iff, !Qleb_le. unfold within. split; intros [I0 [H1 H2]]; (split; [exact I0|]); split; [eapply bound_lo|eapply bound_hi|eapply bound_lo|eapply bound_hi]; eauto.
Qed.
(** C74: the maximum over the levels between the bounds, at every point; NaN exactly if one of these values is. *)
Theorem C74_maximum n ls lo hi out : ls <> [] -> maximum_in_height n ls lo hi = Ok out -> length out = n /\
  forall i, (i < n)%nat -> match nth i out None with
  | Some m => (forall l, In l ls -> within lo hi (lv_height l) -> exists x, value_at i l = Some x /\ x <= m) /\ exists l x, In l ls /\ within lo hi (lv_height l) /\ value_at i l = Some x /\ x == m
  | None => exists l, In l ls /\ within lo hi (lv_height l) /\ value_at i l = None
  end.
Proof.
  intros Ne H. destruct (maximum_inv n ls lo hi Ne) as (sub & Hs & E). rewrite E in H. destruct sub as [|s sub]; [discriminate|]. apply Ok_inj in H. subst out. split; [now rewrite map_length, seq_length|]. intros i Hi.
  rewrite (nth_map_seq _ n i None) by exact Hi. pose proof (column_max_spec (values_of (s :: sub) i)) as C. specialize (C ltac:(discriminate)).
  assert (Iv : forall v, In v (values_of (s :: sub) i) <-> exists l, In l ls /\ within lo hi (lv_height l) /\ value_at i l = v).
  { intro v. unfold values_of. rewrite in_map_iff. split; intros (l & A & B); exists l; [apply Hs in B as [B1 B2]; auto|]. destruct B as [B1 B2]. split; [exact B2|]. now apply Hs. }
  destruct (column_max (values_of (s :: sub) i)) as [m|].
  - destruct C as [A (x & B & Ex)]. split; [intros l Il Wl; apply A, Iv; eauto|]. apply Iv in B as (l & Il & Wl & V). exists l, x. auto.
  - apply Iv in C as (l & Il & Wl & V). eauto.
Qed.
(** C74: a ValueError is raised exactly if no level is between the bounds. *)
Theorem C74_levels_needed n ls lo hi : ls <> [] -> (maximum_in_height n ls lo hi = Err ValueError <-> forall l, In l ls -> ~ within lo hi (lv_height l)) /\ ((exists l, In l ls /\ within lo hi (lv_height l)) -> exists out, maximum_in_height n ls lo hi = Ok out).
Proof.
  intro Ne. destruct (maximum_inv n ls lo hi Ne) as (sub & Hs & ->). split.
  - split; [|intro H; destruct sub as [|s sub]; [reflexivity|exfalso; destruct (proj1 (Hs s) (or_introl eq_refl)) as [A B]; now apply (H s)]]. intros H l Il Wl. destruct sub as [|s sub]; [|discriminate]. now apply (Hs l).
  - intros (l & Il & Wl). destruct sub as [|s sub]; [exfalso; now apply (Hs l)|eauto].
Qed.
Lemma num_eqb_iff a b : num_eqb a b = true <-> exists x y, a = Some x /\ b = Some y /\ x == y.
Proof. destruct a as [x|], b as [y|]; cbn [num_eqb]; try (split; [discriminate|intros (? & ? & ? & ? & ?); discriminate]). rewrite Qeqb_eq. split; [eauto|]. intros (? & ? & E1 & E2 & H). congruence. Qed.
Lemma overwrite_last m i l : forall acc, fold_left (overwrite m i) l acc = match find (fun v => num_eqb (nth i (lv_values v) None) m) (rev l) with Some v => Some (lv_height v) | None => acc end.
Proof.
  induction l as [|v l IH] using rev_ind; intro acc; [reflexivity|]. rewrite fold_left_app, rev_app_distr. cbn [fold_left rev app find]. unfold overwrite at 1. destruct (num_eqb _ m); [reflexivity|]. apply IH.
Qed.
(** A level holds the value given as maximum. *)
Definition holds (mx : list (option Q)) (i : nat) (l : level) : Prop := exists x y, value_at i l = Some x /\ nth i mx None = Some y /\ x == y.
Lemma height_at ls mx low out i : height_of_maximum ls mx low = Ok out -> (i < length mx)%nat ->
  nth i out None = match find (fun v => num_eqb (nth i (lv_values v) None) (nth i mx None)) (if low then rev ls else ls) with Some v => Some (lv_height v) | None => nth i mx None end.
Proof.
  unfold height_of_maximum. destruct (length ls =? 1)%nat; [discriminate|]. intros H Hi. apply Ok_inj in H. subst out. rewrite (nth_map_seq _ _ i None) by exact Hi. rewrite overwrite_last. destruct low; [reflexivity|]. now rewrite rev_involutive.
Qed.
(** C74: a single level is refused, nothing else. *)
Theorem C74_one_level ls mx low : (length ls = 1%nat <-> height_of_maximum ls mx low = Err ValueError) /\ (length ls <> 1%nat -> exists out, height_of_maximum ls mx low = Ok out /\ length out = length mx).
Proof. unfold height_of_maximum. destruct (Nat.eqb_spec (length ls) 1) as [E|E]; (split; [split; [auto; congruence|intro H; try discriminate H; auto]|intro H; try contradiction]). eexists. split; [reflexivity|]. now rewrite map_length, seq_length. Qed.
(** C74: the height reported at a point is that of a level at which the maximum is attained. *)
Theorem C74_height ls mx low out i : height_of_maximum ls mx low = Ok out -> (i < length mx)%nat -> (exists l, In l ls /\ holds mx i l) -> exists l, In l ls /\ holds mx i l /\ nth i out None = Some (lv_height l).
Proof.
  intros H Hi (l & Il & Hl). rewrite (height_at _ _ _ _ _ H Hi). destruct (find _ (if low then rev ls else ls)) as [v|] eqn:F.
  - apply find_some in F as [Iv E]. exists v. split; [destruct low; [now apply in_rev|exact Iv]|]. split; [now apply num_eqb_iff|reflexivity].
  - exfalso. apply (find_none _ _) with (x := l) in F; [|destruct low; [now apply in_rev in Il|exact Il]]. apply num_eqb_iff in Hl. unfold value_at in Hl. congruence.
Qed.
(** C74: if the maximum is attained at several levels, with the levels ordered upwards, then find_lowest gives the highest of them, and the opposite setting the lowest. *)
Lemma find_first {A} (p : A -> bool) (R : A -> A -> Prop) l v : StronglySorted R l -> find p l = Some v -> forall w, In w l -> p w = true -> w = v \/ R v w.
Proof. induction l as [|a l IH]; intros S0 F w Iw Pw; [destruct Iw|]. inversion S0 as [|? ? S1 Fa]; subst. cbn [find] in F. destruct (p a) eqn:Pa; [injection F as <-; destruct Iw as [->|Iw]; [now left|right; rewrite Forall_forall in Fa; now apply Fa]|]. destruct Iw as [->|Iw]; [congruence|]. now apply IH. Qed.
Lemma sorted_rev {A} (R : A -> A -> Prop) l : StronglySorted R l -> StronglySorted (fun a b => R b a) (rev l).
Proof.
  induction l as [|a l IH]; intro S0; [constructor|]. inversion S0 as [|? ? S1 F]; subst. cbn [rev]. specialize (IH S1). rewrite Forall_forall in F. assert (G : forall x, In x (rev l) -> R a x) by (intros x Hx; apply F; now apply in_rev). clear - IH G. induction (rev l) as [|y r IHr]; cbn [app]; [repeat constructor|].
  inversion IH as [|? ? S1 Fy]; subst. constructor; [apply IHr; [exact S1|intros; apply G; now right]|]. rewrite Forall_forall in *. intros x Hx. apply in_app_or in Hx as [Hx|[<-|[]]]; [now apply Fy|apply G; now left].
Qed.
Theorem C74_which ls mx low out i h : StronglySorted (fun a b => lv_height a < lv_height b) ls -> height_of_maximum ls mx low = Ok out -> (i < length mx)%nat -> (exists l, In l ls /\ holds mx i l) -> nth i out None = Some h ->
  forall l, In l ls -> holds mx i l -> if low then lv_height l <= h else h <= lv_height l.
Proof.
  intros S0 H Hi Ex E l Il Hl. rewrite (height_at _ _ _ _ _ H Hi) in E. apply num_eqb_iff in Hl. destruct (find _ (if low then rev ls else ls)) as [v|] eqn:F.
  - injection E as <-. destruct low.
    + apply sorted_rev in S0. destruct (find_first _ _ _ _ S0 F l) as [->|L]; [now apply in_rev in Il|exact Hl| |]; lra.
    + destruct (find_first _ _ _ _ S0 F l) as [->|L]; [exact Il|exact Hl| |]; lra.
  - exfalso. apply (find_none _ _) with (x := l) in F; [|destruct low; [now apply in_rev in Il|exact Il]]. unfold value_at in Hl. congruence.
Qed.
(** C74: with find_lowest (the default) the lowest height with the maximum is reported: refuted. *)
Definition lev (h : Q) (vs : list Q) : level := {| lv_height := h; lv_values := map Some vs |}.
Theorem C74_lowest_refuted : ~ (forall ls mx out i h, StronglySorted (fun a b => lv_height a < lv_height b) ls -> height_of_maximum ls mx true = Ok out -> (i < length mx)%nat -> nth i out None = Some h -> (exists l, In l ls /\ holds mx i l) -> forall l, In l ls -> holds mx i l -> h <= lv_height l).
Proof.
  intro H. specialize (H [lev 5 [7]; lev 75 [7]; lev 200 [3]] [Some 7] [Some 75] 0%nat 75). assert (Hh : holds [Some 7] 0 (lev 5 [7])) by (exists 7, 7; repeat split; reflexivity).
  specialize (H ltac:(repeat constructor) eq_refl ltac:(cbn; lia) eq_refl (ex_intro _ (lev 5 [7]) (conj (or_introl eq_refl) Hh)) (lev 5 [7]) (or_introl eq_refl) Hh). cbn in H. lra.
Qed.
(** C74: where no level holds the value given as maximum (or it is NaN), that value itself is returned as height. *)
Theorem C74_unmatched ls mx low out i : height_of_maximum ls mx low = Ok out -> (i < length mx)%nat -> (forall l, In l ls -> ~ holds mx i l) -> nth i out None = nth i mx None.
Proof.
  intros H Hi N. rewrite (height_at _ _ _ _ _ H Hi). destruct (find _ (if low then rev ls else ls)) as [v|] eqn:F; [|reflexivity]. exfalso. apply find_some in F as [Iv E]. apply (N v); [destruct low; [now apply in_rev|exact Iv]|now apply num_eqb_iff].
Qed.
(** C74: the height of the maximum over all levels: the maximum over these levels is attained there. *)
Theorem C74_composed n ls mx low out i : ls <> [] -> maximum_in_height n ls None None = Ok mx -> height_of_maximum ls mx low = Ok out -> (i < n)%nat -> (forall l, In l ls -> value_at i l <> None) ->
  exists l x, In l ls /\ nth i out None = Some (lv_height l) /\ value_at i l = Some x /\ forall l' y, In l' ls -> value_at i l' = Some y -> y <= x.
Proof.
  intros Ne Hm H Hi Num. destruct (C74_maximum _ _ _ _ _ Ne Hm) as [Ln M]. specialize (M i Hi). destruct (nth i mx None) as [m|] eqn:Em; [|destruct M as (l & Il & _ & V); exfalso; now apply (Num l)].
  destruct M as [Up (l & x & Il & _ & V & E)]. destruct (C74_height ls mx low out i H) as (l' & Il' & (x' & y' & V' & Y' & E') & O); [now rewrite Ln|exists l; split; [exact Il|exists x, m; auto]|].
  rewrite Em in Y'. injection Y' as <-. exists l', x'. split; [exact Il'|]. split; [exact O|]. split; [exact V'|]. intros l2 y Il2 V2. destruct (Up l2 Il2 (conj Logic.I Logic.I)) as (z & Z1 & Z2). rewrite V2 in Z1. injection Z1 as <-. lra.
Qed.
(** C74: the height reported for the maximum between two bounds lies between them: refuted; a level outside may hold the same value. *)
Theorem C74_outside_refuted : ~ (forall n ls lo hi mx low out i h, ls <> [] -> StronglySorted (fun a b => lv_height a < lv_height b) ls -> maximum_in_height n ls lo hi = Ok mx -> height_of_maximum ls mx low = Ok out -> (i < n)%nat -> nth i out None = Some h -> within lo hi h).
Proof.
  intro H. specialize (H 1%nat [lev 5 [1]; lev 75 [7]; lev 200 [7]] None (Some 100) [Some 7] true [Some 200] 0%nat 200). cbn in H. assert (X : True /\ 200 <= 100); [|lra]. apply H; try reflexivity; try discriminate; [repeat constructor|lia].
Qed.
Example C74_case : let ls := [lev 5 [1; 4]; lev 75 [3; 4]; lev 200 [2; 9]] in maximum_in_height 2 ls None (Some 100) = Ok [Some 3; Some 4] /\ height_of_maximum ls [Some 3; Some 4] true = Ok [Some 75; Some 75] /\ height_of_maximum ls [Some 3; Some 4] false = Ok [Some 75; Some 5] /\ maximum_in_height 2 ls (Some 300) None = Err ValueError.
Proof. vm_compute. repeat split; reflexivity. Qed.

(** * C75 *)
(** The value of a cube at given positions along its dimensions. *)
Definition at_labels {A} (f : option string -> nat) (c : cube A) : A := cb_data c (map (fun d => f (fst d)) (cb_dims c)).
Lemma nmem_iff x l : nmem x l = true <-> In x l.
Proof. unfold nmem. rewrite existsb_exists. split; [intros (y & I0 & E); apply Nat.eqb_eq in E; now subst|intro H; exists x; split; [exact H|apply Nat.eqb_refl]]. Qed.
Lemma nodup_b_iff l : nodup_b l = true <-> NoDup l.
Proof.
  induction l as [|x l IH]; cbn [nodup_b]; [split; [constructor|reflexivity]|]. rewrite andb_true_iff, negb_true_iff, IH. split.
  - intros [A B]. constructor; [intro H; apply nmem_iff in H; congruence|exact B].
  - intro H. inversion H as [|? ? N N']; subst. split; [|exact N']. destruct (nmem x l) eqn:E; [apply nmem_iff in E; contradiction|reflexivity].
Qed.
Lemma index_of_spec d l : In d l -> (index_of d l < length l)%nat /\ nth (index_of d l) l 0%nat = d.
Proof. induction l as [|x l IH]; intro H; [destruct H|]. cbn [index_of length]. destruct (Nat.eqb_spec x d) as [->|N]; [cbn; split; [lia|reflexivity]|]. destruct H as [->|H]; [congruence|]. destruct (IH H). cbn [nth]. split; [lia|assumption]. Qed.
Lemma full_perm (perm : list nat) n : length perm = n -> NoDup perm -> (forall d, In d perm -> (d < n)%nat) -> forall d, (d < n)%nat -> In d perm.
Proof.
  intros L N B d Hd. assert (I0 : incl (seq 0 n) perm). { apply NoDup_length_incl; [exact N|rewrite seq_length; lia|]. intros x Hx. apply in_seq. specialize (B x Hx). lia. } apply I0, in_seq. lia.
Qed.
Lemma transpose_inv {A} (c : cube A) perm c' : transpose c perm = Ok c' -> length perm = length (cb_dims c) /\ NoDup perm /\ (forall d, In d perm -> (d < length (cb_dims c))%nat) /\
  cb_dims c' = map (fun d => nth d (cb_dims c) (None, 0%nat)) perm /\ forall f, at_labels f c' = at_labels f c.
Proof.
  unfold transpose. destruct (_ && _ && _)%bool eqn:E; [|discriminate]. intro H. apply Ok_inj in H. subst c'. rewrite !andb_true_iff in E. destruct E as [[E1 E2] E3]. apply Nat.eqb_eq in E1. apply nodup_b_iff in E2. rewrite forallb_forall in E3.
  assert (B : forall d, In d perm -> (d < length (cb_dims c))%nat) by (intros d Hd; apply E3 in Hd; now apply Nat.ltb_lt in Hd). repeat (split; [assumption||reflexivity|]). intro f. unfold at_labels. cbn [cb_data cb_dims]. f_equal.
  rewrite map_map. transitivity (map (fun d => f (fst (nth d (cb_dims c) (None, 0%nat)))) (seq 0 (length (cb_dims c)))).
  - apply map_ext_in. intros d Hd. apply in_seq in Hd. destruct (index_of_spec d perm) as [A1 A2]; [apply (full_perm perm _ E1 E2 B); lia|].
    rewrite (nth_indep _ 0%nat (f (fst (nth 0 (cb_dims c) (None, 0%nat))))) by (rewrite map_length; exact A1). rewrite (map_nth (fun d => f (fst (nth d (cb_dims c) (None, 0%nat)))) perm 0%nat). now rewrite A2.
  - clear. apply nth_ext with (d := f (fst (@None string, 0%nat))) (d' := f (fst (@None string, 0%nat))); [now rewrite !map_length, seq_length|]. rewrite map_length, seq_length. intros k Hk. rewrite (nth_map_seq (fun d => f (fst (nth d (cb_dims c) (None, 0%nat))))) by exact Hk. now rewrite (map_nth (fun d => f (fst d))).
Qed.
Lemma transpose_ok {A} (c : cube A) perm : length perm = length (cb_dims c) -> NoDup perm -> (forall d, In d perm -> (d < length (cb_dims c))%nat) -> exists c', transpose c perm = Ok c'.
Proof.
  intros L N B. unfold transpose. assert (E : ((length perm =? length (cb_dims c))%nat && nodup_b perm && forallb (fun d => (d <? length (cb_dims c))%nat) perm)%bool = true). { rewrite !andb_true_iff. split; [split; [now apply Nat.eqb_eq|now apply nodup_b_iff]|]. apply forallb_forall. intros d Hd. now apply Nat.ltb_lt, B. } rewrite E. eauto.
Qed.
Lemma nth_full {A} (l : list A) d : map (fun k => nth k l d) (seq 0 (length l)) = l.
Proof. apply nth_ext with (d := d) (d' := d); [now rewrite map_length, seq_length|]. rewrite map_length, seq_length. intros k Hk. now rewrite (nth_map_seq (fun k => nth k l d)). Qed.
Lemma perm_dims {A} (l : list A) d perm : length perm = length l -> NoDup perm -> (forall k, In k perm -> (k < length l)%nat) -> Permutation (map (fun k => nth k l d) perm) l.
Proof.
  intros L N B. transitivity (map (fun k => nth k l d) (seq 0 (length l))); [|now rewrite nth_full]. apply Permutation_map. apply NoDup_Permutation; [exact N|apply seq_NoDup|]. intro k. rewrite in_seq. split; [intro H; specialize (B k H); lia|intro H; apply (full_perm perm (length l)); auto; lia].
Qed.
(** C75: reordering loses nothing: the same dimensions, and the value at every position is unchanged; any other outcome is a ValueError. *)
Theorem C75_values {A} (c c' : cube A) th names start : enforce_ordering c th names start = Ok c' -> Permutation (cb_dims c') (cb_dims c) /\ forall f, at_labels f c' = at_labels f c.
Proof.
  unfold enforce_ordering. destruct (ascending _); intro H; [apply Ok_inj in H; now subst|]. apply transpose_inv in H as (L & N & B & D & V). split; [|exact V]. rewrite D. now apply perm_dims.
Qed.
Theorem C75_error {A} (c : cube A) th names start e : enforce_ordering c th names start = Err e -> e = ValueError.
Proof. unfold enforce_ordering, transpose. destruct (ascending _); [discriminate|]. destruct (_ && _ && _)%bool; congruence. Qed.

(** What is asked for: the names, the word threshold standing for the threshold coordinate, that are dimensions of the cube. *)
Definition is_dimension {A} (c : cube A) (s : string) : Prop := In (Some s) (map fst (cb_dims c)).
Definition meant (th : option string) (names : list string) : list string := flat_map (fun s => if String.eqb s "threshold" then match th with Some t => [t] | None => [] end else [s]) names.
Definition all_named {A} (c : cube A) : Prop := NoDup (map fst (cb_dims c)) /\ ~ In None (map fst (cb_dims c)).
Lemma dim_is_iff s d : dim_is s d = true <-> fst d = Some s.
Proof. unfold dim_is. destruct (fst d) as [t|]; [|split; discriminate]. rewrite String.eqb_eq. split; congruence. Qed.
Lemma dim_of_spec s dims : forall k, match dim_of s k dims with Some j => exists m, j = (k + m)%nat /\ (m < length dims)%nat /\ fst (nth m dims (None, 0%nat)) = Some s | None => ~ In (Some s) (map fst dims) end.
Proof.
  induction dims as [|d r IH]; intro k; cbn [dim_of]; [intros []|]. destruct (dim_is s d) eqn:E.
  - exists 0%nat. apply dim_is_iff in E. cbn. repeat split; [lia|lia|exact E].
  - specialize (IH (S k)). destruct (dim_of s (S k) r) as [j|]; [destruct IH as (m & -> & Hm & F); exists (S m); cbn; repeat split; [lia|lia|exact F]|]. intros [H|H]; [apply dim_is_iff in H; congruence|contradiction].
Qed.
Definition pos (dims : list (option string * nat)) (s : string) : list nat := match dim_of s 0 dims with Some d => [d] | None => [] end.
Lemma named_dims_eq {A} (c : cube A) th names : named_dims c th names = flat_map (pos (cb_dims c)) (meant th names).
Proof.
  unfold named_dims, meant. induction names as [|s r IH]; [reflexivity|]. cbn [flat_map]. rewrite IH, flat_map_app. f_equal. destruct (String.eqb s "threshold"); [destruct th; [|reflexivity]|]; unfold pos; cbn [flat_map]; now rewrite app_nil_r.
Qed.
Definition label_of (dims : list (option string * nat)) (d : nat) : option string := fst (nth d dims (None, 0%nat)).
Lemma pos_spec dims s : (In (Some s) (map fst dims) /\ exists d, pos dims s = [d] /\ (d < length dims)%nat /\ label_of dims d = Some s) \/ (~ In (Some s) (map fst dims) /\ pos dims s = []).
Proof.
  unfold pos. pose proof (dim_of_spec s dims 0) as H. destruct (dim_of s 0 dims) as [d|]; [left|now right]. destruct H as (m & -> & Hm & F). cbn [Nat.add]. split; [|exists m; auto]. rewrite <- F. apply in_map_iff. exists (nth m dims (None, 0%nat)). split; [reflexivity|now apply nth_In].
Qed.
Lemma label_inj dims a b : NoDup (map fst dims) -> (a < length dims)%nat -> (b < length dims)%nat -> label_of dims a = label_of dims b -> a = b.
Proof.
  intros N Ha Hb E. unfold label_of in E. rewrite <- !(map_nth (@fst (option string) nat)) in E. cbn [fst] in E. apply (proj1 (NoDup_nth (map fst dims) None) N); rewrite ?map_length; auto.
Qed.
(** The names of [l] that are dimensions. *)
Definition present (dims : list (option string * nat)) (l : list string) : list string := filter (fun s => existsb (dim_is s) dims) l.
Lemma existsb_dim s dims : existsb (dim_is s) dims = true <-> In (Some s) (map fst dims).
Proof. rewrite existsb_exists, in_map_iff. split; intros (d & A & B); exists d; [apply dim_is_iff in B|apply dim_is_iff in A]; auto. Qed.
Lemma labels_of_positions dims l : map (label_of dims) (flat_map (pos dims) l) = map Some (present dims l) /\ forall d, In d (flat_map (pos dims) l) -> (d < length dims)%nat.
Proof.
  induction l as [|s l [IH1 IH2]]; [split; [reflexivity|intros d []]|]. cbn [flat_map present filter]. fold (present dims l). destruct (pos_spec dims s) as [[I0 (d & E & B & L)]|[N E]]; rewrite E.
  - rewrite (proj2 (existsb_dim s dims) I0). cbn [app map]. split; [now rewrite L, IH1|]. intros k [<-|Hk]; auto.
  - destruct (existsb (dim_is s) dims) eqn:X; [apply existsb_dim in X; contradiction|]. auto.
Qed.
Lemma ascending_sorted l : ascending l = true -> StronglySorted le l.
Proof.
  induction l as [|x [|y l] IH]; intro H; [constructor|repeat constructor|]. cbn [ascending] in H. apply andb_true_iff in H as [A B]. apply Nat.leb_le in A. specialize (IH B). constructor; [exact IH|]. inversion IH as [|? ? _ F]; subst. constructor; [exact A|]. rewrite Forall_forall in *. intros z Hz. specialize (F z Hz). lia.
Qed.
Lemma nat_sorted_ext l : forall m, StronglySorted le l -> StronglySorted le m -> NoDup l -> NoDup m -> (forall x, In x l <-> In x m) -> l = m.
Proof.
  induction l as [|a l IH]; intros [|b m] Sa Sb Na Nb E; [reflexivity|exfalso; apply (E b); now left|exfalso; apply (E a); now left|]. inversion Sa as [|? ? Sa' Fa]; subst. inversion Sb as [|? ? Sb' Fb]; subst. inversion Na as [|? ? Na1 Na2]; subst. inversion Nb as [|? ? Nb1 Nb2]; subst. rewrite Forall_forall in Fa, Fb.
  assert (a = b). { destruct (proj1 (E a) (or_introl eq_refl)) as [->|H1]; [reflexivity|]. destruct (proj2 (E b) (or_introl eq_refl)) as [->|H2]; [reflexivity|]. specialize (Fa b H2). specialize (Fb a H1). lia. }
  subst b. f_equal. apply IH; auto. intro x. split; intro H; [destruct (proj1 (E x) (or_intror H)) as [->|]|destruct (proj2 (E x) (or_intror H)) as [->|]]; auto; contradiction.
Qed.
Lemma seq_sorted k n : StronglySorted le (seq k n).
Proof. revert k. induction n as [|n IH]; intro k; [constructor|]. cbn [seq]. constructor; [apply IH|]. apply Forall_forall. intros x Hx. apply in_seq in Hx. lia. Qed.
Lemma with_coord_all dims : ~ In None (map fst dims) -> with_coord dims = seq 0 (length dims).
Proof.
  intro N. unfold with_coord. apply filter_all. intros d Hd. apply in_seq in Hd. destruct (fst (nth d dims (None, 0%nat))) eqn:E; [reflexivity|]. exfalso. apply N. rewrite <- E. apply in_map, nth_In. lia.
Qed.
(** C75: with every dimension named, the dimensions asked for come first (or last) in the order asked for, the others keep their order. Asking for the same dimension twice is excluded. *)
Theorem C75_order {A} (c : cube A) th names start : all_named c -> let first := filter (fun s => existsb (dim_is s) (cb_dims c)) (meant th names) in NoDup first ->
  exists c', enforce_ordering c th names start = Ok c' /\ let others := filter (fun n => negb (existsb (fun s => match n with Some t => String.eqb s t | None => false end) first)) (map fst (cb_dims c)) in
  map fst (cb_dims c') = if start then map Some first ++ others else others ++ map Some first.
Proof.
  intros [N Nn] first Nf. set (dims := cb_dims c) in *. change first with (present dims (meant th names)) in Nf |- *. clear first. set (first := present dims (meant th names)) in *. cbv zeta.
  unfold enforce_ordering. rewrite named_dims_eq. fold dims. rewrite (with_coord_all dims Nn). set (fd := flat_map (pos dims) (meant th names)). destruct (labels_of_positions dims (meant th names)) as [Lf Bf]. fold fd in Lf, Bf. fold first in Lf.
  set (others := filter (fun d => negb (nmem d fd)) (seq 0 (length dims))).
  assert (Nfd : NoDup fd). { apply (NoDup_map_inv (label_of dims)). rewrite Lf. apply FinFun.Injective_map_NoDup; [intros x y E; congruence|exact Nf]. }
  assert (No : NoDup others) by (apply NoDup_filter, seq_NoDup).
  assert (Io : forall d, In d others <-> (d < length dims)%nat /\ ~ In d fd). { intro d. unfold others. rewrite filter_In, in_seq, negb_true_iff. split; intros [H1 H2]; (split; [lia|]); [intro H; apply nmem_iff in H; congruence|destruct (nmem d fd) eqn:E; [apply nmem_iff in E; contradiction|reflexivity]]. }
  set (nd := if start then fd ++ others else others ++ fd).
  assert (Nnd : NoDup nd). { unfold nd. destruct start; apply nodup_app; auto; intros x H1 H2; apply Io in H1 || apply Io in H2; tauto. }
  assert (Ind : forall d, In d nd <-> (d < length dims)%nat). { intro d. unfold nd. assert (X : In d fd \/ In d others <-> (d < length dims)%nat) by (rewrite Io; split; [intros [H|H]; [now apply Bf|tauto]|intro H; destruct (in_dec Nat.eq_dec d fd); tauto]). rewrite <- X. destruct start; rewrite in_app_iff; tauto. }
  assert (Pnd : Permutation nd (seq 0 (length dims))) by (apply NoDup_Permutation; [exact Nnd|apply seq_NoDup|]; intro d; rewrite Ind, in_seq; lia).
  assert (G : exists c', (if ascending nd then Ok c else transpose c nd) = Ok c' /\ cb_dims c' = map (fun d => nth d dims (None, 0%nat)) nd).
  { destruct (ascending nd) eqn:As.
    - exists c. split; [reflexivity|]. fold dims. assert (nd = seq 0 (length dims)) as ->; [|now rewrite nth_full]. apply nat_sorted_ext; [now apply ascending_sorted|apply seq_sorted|exact Nnd|apply seq_NoDup|]. intro d. rewrite Ind, in_seq. lia.
    - destruct (transpose_ok c nd) as (c' & E); [apply Permutation_length in Pnd; rewrite seq_length in Pnd; exact Pnd|exact Nnd|intros d Hd; now apply Ind|]. exists c'. split; [exact E|]. now apply transpose_inv in E. }
  destruct G as (c' & E & D). exists c'. split; [exact E|]. rewrite D, map_map. change (fun x => fst (nth x dims (None, 0%nat))) with (label_of dims).
  assert (Lo : map (label_of dims) others = filter (fun n => negb (existsb (fun s => match n with Some t => String.eqb s t | None => false end) first)) (map fst dims)).
  { rewrite <- (nth_full (map fst dims) None). rewrite map_length. unfold others.
    assert (Y : forall d, (d < length dims)%nat -> nth d (map fst dims) None = label_of dims d) by (intros d Hd; unfold label_of; now rewrite <- (map_nth (@fst (option string) nat))).
    assert (Z : forall d, (d < length dims)%nat -> negb (nmem d fd) = negb (existsb (fun s => match label_of dims d with Some t => String.eqb s t | None => false end) first)).
    { intros d Hd. f_equal. apply eq_true_iff_eq. rewrite nmem_iff, existsb_exists. split.
      - intro H. apply (in_map (label_of dims)) in H. rewrite Lf in H. apply in_map_iff in H as (s & Es & Is). exists s. split; [exact Is|]. rewrite <- Es. apply String.eqb_refl.
      - intros (s & Is & Es). assert (Ls : label_of dims d = Some s) by (destruct (label_of dims d); [apply String.eqb_eq in Es; congruence|discriminate]). apply (in_map Some) in Is. rewrite <- Lf in Is. apply in_map_iff in Is as (d' & E1 & E2). assert (d' = d) by (apply (label_inj dims); auto; congruence). now subst. }
    clear - Y Z. assert (B : forall d, In d (seq 0 (length dims)) -> (d < length dims)%nat) by (intros d Hd; apply in_seq in Hd; lia). induction (seq 0 (length dims)) as [|d l IH]; [reflexivity|]. cbn [filter map]. rewrite (Z d) by (apply B; now left). rewrite (Y d) by (apply B; now left). destruct (negb (existsb (fun s => match label_of dims d with Some t => String.eqb s t | None => false end) first)); cbn [map]; rewrite IH by (intros; apply B; now right); reflexivity. }
  unfold nd. destruct start; rewrite map_app, Lf, Lo; reflexivity.
Qed.
Lemma filter_none {A} (f : A -> bool) l : (forall x, In x l -> f x = false) -> filter f l = [].
Proof. intro H. induction l as [|x l IH]; [reflexivity|]. cbn [filter]. rewrite (H x (or_introl eq_refl)). apply IH. intros; apply H; now right. Qed.
(** C75: reordering twice is reordering once. *)
Theorem C75_idempotent {A} (c c' : cube A) th names start : all_named c -> NoDup (filter (fun s => existsb (dim_is s) (cb_dims c)) (meant th names)) -> enforce_ordering c th names start = Ok c' ->
  exists c2, enforce_ordering c' th names start = Ok c2 /\ map fst (cb_dims c2) = map fst (cb_dims c') /\ forall f, at_labels f c2 = at_labels f c'.
Proof.
  intros [N Nn] Nf H. destruct (C75_values _ _ _ _ _ H) as [P _]. pose proof (Permutation_map fst P) as Pm.
  assert (Same : forall s, existsb (dim_is s) (cb_dims c') = existsb (dim_is s) (cb_dims c)). { intro s. apply eq_true_iff_eq. rewrite !existsb_dim. split; apply Permutation_in; [exact Pm|now symmetry]. }
  assert (Na : all_named c') by (split; [now apply (Permutation_NoDup (Permutation_sym Pm))|intro X; apply Nn; now apply (Permutation_in _ Pm)]).
  destruct (C75_order c th names start (conj N Nn) Nf) as (c1 & E1 & D1). rewrite H in E1. apply Ok_inj in E1. subst c1.
  assert (Ef : filter (fun s => existsb (dim_is s) (cb_dims c')) (meant th names) = filter (fun s => existsb (dim_is s) (cb_dims c)) (meant th names)) by (apply filter_ext; exact Same).
  destruct (C75_order c' th names start Na) as (c2 & E2 & D2); [now rewrite Ef|]. exists c2. split; [exact E2|]. split; [|now apply (C75_values _ _ _ _ _ E2)]. cbv zeta in D1, D2. rewrite D2, Ef. clear D2 E2. set (first := filter (fun s => existsb (dim_is s) (cb_dims c)) (meant th names)) in *.
  set (q := fun n : option string => negb (existsb (fun s => match n with Some t => String.eqb s t | None => false end) first)) in *.
  assert (Fo : filter q (map fst (cb_dims c')) = filter q (map fst (cb_dims c))); [|rewrite Fo; symmetry; exact D1]. rewrite D1.
  assert (F1 : filter q (map Some first) = []). { apply filter_none. intros x Hx. apply in_map_iff in Hx as (s & <- & Is). unfold q. apply negb_false_iff. apply existsb_exists. exists s. split; [exact Is|apply String.eqb_refl]. }
  assert (F2 : forall l, filter q (filter q l) = filter q l) by (intro l; apply filter_all; intros x Hx; now apply filter_In in Hx). destruct start; rewrite filter_app, F1, F2; [reflexivity|apply app_nil_r].
Qed.
(** C75: a dimension without coordinate prevents any true reordering, even of the other dimensions. *)
Theorem C75_anonymous {A} (c : cube A) th names start : In None (map fst (cb_dims c)) -> enforce_ordering c th names start = Ok c \/ enforce_ordering c th names start = Err ValueError.
Proof.
  intro An. destruct (enforce_ordering c th names start) as [c'|e] eqn:E; [|right; now rewrite (C75_error _ _ _ _ _ E)]. left. unfold enforce_ordering in E. destruct (ascending _); [now symmetry|]. exfalso. apply transpose_inv in E as (L & N & B & _).
  (* the dimension without coordinate is not in the list *)
  apply in_map_iff in An as (x & X1 & X2). apply (In_nth _ _ (None, 0%nat)) in X2 as (d & Hd & X2). pose proof (full_perm _ _ L N B d Hd) as I0.
  assert (In d (named_dims c th names) \/ In d (with_coord (cb_dims c))) as [I1|I1]. { destruct start; apply in_app_or in I0 as [I0|I0]; auto; apply filter_In in I0; tauto. }
  - rewrite named_dims_eq in I1. destruct (labels_of_positions (cb_dims c) (meant th names)) as [Lf _]. apply (in_map (label_of (cb_dims c))) in I1. rewrite Lf in I1. apply in_map_iff in I1 as (s & Es & _). unfold label_of in Es. rewrite X2, X1 in Es. discriminate.
  - unfold with_coord in I1. apply filter_In in I1 as [_ I1]. rewrite X2, X1 in I1. discriminate.
Qed.
(** C75: adding a dimension: it is at the place asked for, the other dimensions keep their order, and every value is repeated along it. *)
Theorem C75_added {A} (c : cube A) name size loc : let n := length (cb_dims c) in
  ((loc < 0 \/ Z.of_nat n < loc)%Z -> add_coordinate c name size loc = Err ValueError) /\
  ((0 <= loc <= Z.of_nat n)%Z -> exists c', add_coordinate c name size loc = Ok c' /\ (let k := Z.to_nat loc in cb_dims c' = firstn k (cb_dims c) ++ (Some name, size) :: skipn k (cb_dims c)) /\ forall f, at_labels f c' = at_labels f c).
Proof.
  intro n. unfold add_coordinate. fold n. split; intro H.
  - destruct (Z.ltb_spec (Z.of_nat n) loc), (Z.ltb_spec loc 0); try reflexivity; lia.
  - destruct (Z.ltb_spec (Z.of_nat n) loc); [lia|]. destruct (Z.ltb_spec loc 0); [lia|]. cbn [orb]. set (k := Z.to_nat loc). assert (Hk : (k <= n)%nat) by lia. clearbody k. clear loc H H0 H1.
    set (big := {| cb_dims := cb_dims c ++ [(Some name, size)]; cb_data := fun idx => cb_data c (firstn n idx) |}). set (perm := firstn k (seq 0 n) ++ [n] ++ skipn k (seq 0 n)).
    assert (Pp : Permutation perm (seq 0 (n + 1))). { rewrite seq_app. cbn [seq Nat.add]. unfold perm. rewrite <- (firstn_skipn k (seq 0 n)) at 3. rewrite <- app_assoc. apply Permutation_app_head. apply Permutation_cons_append. }
    assert (Lb : length (cb_dims big) = (n + 1)%nat) by (cbn [big cb_dims]; now rewrite app_length).
    destruct (transpose_ok big perm) as (c' & E). { rewrite Lb, (Permutation_length Pp). apply seq_length. } { apply (Permutation_NoDup (Permutation_sym Pp)), seq_NoDup. } { intros d Hd. apply (Permutation_in _ Pp), in_seq in Hd. lia. }
    exists c'. split; [exact E|]. apply transpose_inv in E as (_ & _ & _ & D & V). split.
    + rewrite D. unfold perm. rewrite !map_app. cbn [map app big cb_dims].
      assert (X : forall l, (forall d, In d l -> (d < n)%nat) -> map (fun d => nth d (cb_dims c ++ [(Some name, size)]) (None, 0%nat)) l = map (fun d => nth d (cb_dims c) (None, 0%nat)) l) by (intros l Hl; apply map_ext_in; intros d Hd; apply app_nth1; now apply Hl).
      rewrite !X by (intros d Hd; assert (In d (seq 0 n)) as I0 by (rewrite <- (firstn_skipn k (seq 0 n)); apply in_or_app; tauto); apply in_seq in I0; lia). rewrite <- firstn_map, <- skipn_map. unfold n at 1 2. rewrite !nth_full. f_equal. unfold n. rewrite nth_full. rewrite app_nth2 by lia. now rewrite Nat.sub_diag.
    + intro f. rewrite V. unfold at_labels. cbn [big cb_data cb_dims]. rewrite map_app. f_equal. unfold n. rewrite <- (map_length (fun d => f (fst d)) (cb_dims c)). rewrite firstn_app, Nat.sub_diag, firstn_all. cbn [firstn map]. apply app_nil_r.
Qed.
(** C75: sorting along a coordinate: the same slices, each with its point, in ascending (descending) order. *)
Lemma insert_point_perm {A} (p : Q * A) l : Permutation (insert_point p l) (p :: l).
Proof. induction l as [|q l IH]; [reflexivity|]. cbn [insert_point]. destruct (fst p <=? fst q); [reflexivity|]. rewrite IH. apply perm_swap. Qed.
Lemma sort_points_perm {A} (l : list (Q * A)) : Permutation (sort_points l) l.
Proof. induction l as [|p l IH]; [reflexivity|]. cbn [sort_points fold_right]. change (fold_right insert_point [] l) with (sort_points l). rewrite insert_point_perm. now constructor. Qed.
Lemma insert_point_sorted {A} (p : Q * A) l : StronglySorted (fun a b => fst a <= fst b) l -> StronglySorted (fun a b => fst a <= fst b) (insert_point p l).
Proof.
  induction l as [|q l IH]; intro S0; [repeat constructor|]. inversion S0 as [|? ? S1 F]; subst. cbn [insert_point]. destruct (fst p <=? fst q) eqn:E.
  - apply Qleb_le in E. constructor; [exact S0|]. constructor; [exact E|]. rewrite Forall_forall in *. intros x Hx. specialize (F x Hx). lra.
  - assert (L : fst q < fst p) by (apply Qnot_le_lt; intro X; apply Qleb_le in X; congruence). constructor; [now apply IH|]. rewrite Forall_forall in *. intros x Hx. apply (Permutation_in _ (insert_point_perm p l)) in Hx as [<-|Hx]; [lra|now apply F].
Qed.
Lemma sort_points_sorted {A} (l : list (Q * A)) : StronglySorted (fun a b => fst a <= fst b) (sort_points l).
Proof. induction l as [|p l IH]; [constructor|]. now apply insert_point_sorted. Qed.
Theorem C75_sorted {A} (l : list (Q * A)) (descending : bool) : Permutation (sort_coord descending l) l /\ StronglySorted (fun a b => if descending then fst b <= fst a else fst a <= fst b) (sort_coord descending l).
Proof.
  unfold sort_coord. destruct descending.
  - split; [transitivity (sort_points l); [symmetry; apply Permutation_rev|apply sort_points_perm]|]. apply (sorted_rev (fun a b => fst a <= fst b)), sort_points_sorted.
  - split; [apply sort_points_perm|apply sort_points_sorted].
Qed.
Example C75_case : let c := {| cb_dims := [(Some "realization", 2); (Some "air_temperature", 3); (Some "y", 4); (Some "x", 5)]%string%nat; cb_data := fun idx => idx |} in
  all_named c /\ NoDup (filter (fun s => existsb (dim_is s) (cb_dims c)) (meant (Some "air_temperature"%string) ["threshold"; "time"; "realization"]%string)) /\
  (match enforce_ordering c (Some "air_temperature"%string) ["threshold"; "time"; "realization"]%string true with Ok c' => map fst (cb_dims c') = [Some "air_temperature"; Some "realization"; Some "y"; Some "x"]%string /\ cb_data c' [10; 20; 30; 40]%nat = [20; 10; 30; 40]%nat | Err _ => False end) /\
  (match enforce_ordering c None ["realization"]%string false with Ok c' => map fst (cb_dims c') = [Some "air_temperature"; Some "y"; Some "x"; Some "realization"]%string | Err _ => False end) /\
  enforce_ordering c None ["x"; "x"]%string true = Err ValueError /\ enforce_ordering {| cb_dims := [(None, 2); (Some "y", 4); (Some "x", 5)]%string%nat; cb_data := fun idx => idx |} None ["x"; "y"]%string true = Err ValueError.
Proof.
  cbv zeta. split; [split; [repeat constructor; cbn; intuition congruence|cbn; intuition congruence]|]. split; [vm_compute; repeat constructor; cbn; intuition congruence|]. split; [vm_compute; auto|]. split; [vm_compute; auto|]. split; reflexivity.
Qed.

Print Assumptions C74_maximum.
Print Assumptions C74_levels_needed.
Print Assumptions C74_one_level.
Print Assumptions C74_height.
Print Assumptions C74_which.
Print Assumptions C74_lowest_refuted.
Print Assumptions C74_unmatched.
Print Assumptions C74_composed.
Print Assumptions C74_outside_refuted.
Print Assumptions C75_values.
Print Assumptions C75_error.
Print Assumptions C75_order.
Print Assumptions C75_idempotent.
Print Assumptions C75_anonymous.
Print Assumptions C75_added.
Print Assumptions C75_sorted.
