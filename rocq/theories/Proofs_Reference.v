(** Proofs for C44 and C45. *)
From Verif Require Import Base Model_Reference Spec_Reference.
Local Open Scope Q_scope.

Lemma zip3_length {A B C D} (f : A -> B -> C -> D) a : forall b c, length b = length a -> length c = length a -> length (zip3 f a b c) = length a.
Proof. induction a as [|x a IH]; intros [|y b] [|z c] E F; cbn in *; try lia. rewrite IH; lia. Qed.
Lemma zip3_nth {A B C D} (f : A -> B -> C -> D) a da db dc dd : forall b c p, length b = length a -> length c = length a -> (p < length a)%nat ->
  nth p (zip3 f a b c) dd = f (nth p a da) (nth p b db) (nth p c dc).
Proof. induction a as [|x a IH]; intros [|y b] [|z c] p E F L; cbn in *; try lia. destruct p; [reflexivity|]. apply IH; lia. Qed.
Lemma spread_length n b : (forall l, b = Some l -> length l = n) -> length (spread n b) = n.
Proof. destruct b as [l|]; cbn; intros H; [rewrite map_length; auto|apply repeat_length]. Qed.
Lemma spread_nth n b p : (forall l, b = Some l -> length l = n) -> (p < n)%nat -> nth p (spread n b) None = match b with Some l => Some (nth p l 0) | None => None end.
Proof. destruct b as [l|]; cbn; intros H L; [|apply nth_repeat]. rewrite (nth_map_lt Some l p 0); [reflexivity|]. rewrite (H l eq_refl). exact L. Qed.
Lemma bound_length ref a m : length (calculate_bound ref a m) = length ref.
Proof. unfold calculate_bound. rewrite !map_length. reflexivity. Qed.
Lemma bound_nth ref a m p : (p < length ref)%nat -> nth p (calculate_bound ref a m) 0 == line a m (nth p ref 0).
Proof. intros L. unfold calculate_bound. rewrite map_map. rewrite (nth_map_lt (fun x => a + m * x) ref p 0) by exact L. unfold line. ring. Qed.
Lemma any_gt_false a : forall b, length b = length a -> (any_gt a b = false <-> forall p, (p < length a)%nat -> nth p a 0 <= nth p b 0).
Proof.
  induction a as [|x a IH]; intros [|y b] L; cbn in *; try lia.
  - split; [intros _ p H; lia|reflexivity].
  - rewrite orb_false_iff, Qltb_ge, IH by lia. split.
    + intros [H H'] [|p] Hp; [exact H|apply H'; lia].
    + intros H. split; [apply (H 0%nat); lia|]. intros p Hp. apply (H (S p)). lia.
Qed.


Definition same_opt (a b : option Q) : Prop := match a, b with Some x, Some y => x == y | None, None => True | _, _ => False end.
Lemma clip_opt_within lo hi lo' hi' x : same_opt lo lo' -> same_opt hi hi' -> (forall l h, lo = Some l -> hi = Some h -> l <= h) -> within lo hi (clip_opt x lo' hi').
Proof.
  intros SL SH H. unfold within, clip_opt. destruct lo as [l|], hi as [h|], lo' as [l'|], hi' as [h'|]; cbn in SL, SH; try contradiction; cbv zeta; split; intros v E; inversion E; subst;
    try (assert (X := H _ _ eq_refl eq_refl)); qmm; lra.
Qed.
Lemma clip_opt_same lo hi lo' hi' x : same_opt lo lo' -> same_opt hi hi' -> within lo hi x -> clip_opt x lo' hi' == x.
Proof.
  intros SL SH [A B]. unfold clip_opt. destruct lo as [l|], hi as [h|], lo' as [l'|], hi' as [h'|]; cbn in SL, SH; try contradiction; cbv zeta;
    try (assert (X := A _ eq_refl)); try (assert (Y := B _ eq_refl)); qmm; lra.
Qed.
Lemma clip_opt_nearest lo hi lo' hi' x y : same_opt lo lo' -> same_opt hi hi' -> (forall l h, lo = Some l -> hi = Some h -> l <= h) -> within lo hi y ->
  Qabs (clip_opt x lo' hi' - x) <= Qabs (y - x).
Proof.
  intros SL SH H [A B]. unfold clip_opt. destruct lo as [l|], hi as [h|], lo' as [l'|], hi' as [h'|]; cbn in SL, SH; try contradiction; cbv zeta;
    try (assert (X := A _ eq_refl)); try (assert (Y := B _ eq_refl)); try (assert (Z := H _ _ eq_refl eq_refl));
    apply Qabs_Qle_condition; assert (P1 := Qle_Qabs (y - x)); assert (P2 := Qle_Qabs (- (y - x))); rewrite Qabs_opp in P2; qmm; split; lra.
Qed.

Definition at_opt (b : option (list Q)) (p : nat) : option Q := match b with Some l => Some (nth p l 0) | None => None end.
Lemma bounds_limits e ref b : enforcement_bounds e ref = Ok b ->
  (forall l, fst b = Some l -> length l = length ref) /\ (forall l, snd b = Some l -> length l = length ref) /\
  (forall r, limits e r <> None) /\
  forall p, (p < length ref)%nat -> exists lo hi, limits e (nth p ref 0) = Some (lo, hi) /\ same_opt lo (at_opt (fst b) p) /\ same_opt hi (at_opt (snd b) p) /\
    (forall l h, lo = Some l -> hi = Some h -> l <= h).
Proof.
  unfold enforcement_bounds, limits. destruct (e_add e) as [a|as_], (e_mul e) as [m|ms], (e_cmp e) as [c|cs]; try discriminate.
  - cbv zeta. destruct (string_dec c ">=") as [-> |N].
    + intros E. inversion E; subst. cbn [fst snd]. split; [intros l [= <-]; apply bound_length|]. split; [discriminate|]. split; [discriminate|]. intros p P. do 2 eexists. split; [reflexivity|].
      split; [|split; [exact I|discriminate]]. cbn [at_opt same_opt]. symmetry. apply bound_nth. exact P.
    + destruct (string_dec c "<=") as [-> |N']; [|discriminate].
      intros E. inversion E; subst. cbn [fst snd]. split; [discriminate|]. split; [intros l [= <-]; apply bound_length|]. split; [discriminate|]. intros p P. do 2 eexists. split; [reflexivity|].
      split; [exact I|]. split; [|discriminate]. cbn [at_opt same_opt]. symmetry. apply bound_nth. exact P.
  - destruct as_ as [|a [|a' as_]]; cbn [item nth_error bind]; [discriminate| |]; destruct ms as [|m [|m' ms]]; cbn [item nth_error bind]; try discriminate.
    destruct (list_eq_dec string_dec cs _) as [-> |N].
    + cbn [bind fst snd]. destruct (any_gt _ _) eqn:G; [discriminate|]. intros E. inversion E; subst. cbn [fst snd].
      split; [intros l [= <-]; apply bound_length|]. split; [intros l [= <-]; apply bound_length|]. split; [discriminate|]. intros p P.
      rewrite any_gt_false in G by (rewrite !bound_length; reflexivity). rewrite bound_length in G. specialize (G p P). rewrite !bound_nth in G by exact P.
      do 2 eexists. split; [reflexivity|]. cbn [at_opt same_opt]. split; [symmetry; apply bound_nth, P|]. split; [symmetry; apply bound_nth, P|]. intros l h [= <-] [= <-]. exact G.
    + destruct (list_eq_dec string_dec cs _) as [-> |N']; [|discriminate]. cbn [bind fst snd]. destruct (any_gt _ _) eqn:G; [discriminate|]. intros E. inversion E; subst. cbn [fst snd].
      split; [intros l [= <-]; apply bound_length|]. split; [intros l [= <-]; apply bound_length|]. split; [discriminate|]. intros p P.
      rewrite any_gt_false in G by (rewrite !bound_length; reflexivity). rewrite bound_length in G. specialize (G p P). rewrite !bound_nth in G by exact P.
      do 2 eexists. split; [reflexivity|]. cbn [at_opt same_opt]. split; [symmetry; apply bound_nth, P|]. split; [symmetry; apply bound_nth, P|]. intros l h [= <-] [= <-]. exact G.
Qed.
Lemma bounds_total e ref : limits e 0 <> None -> (forall p lo hi, (p < length ref)%nat -> limits e (nth p ref 0) = Some (Some lo, Some hi) -> lo <= hi) ->
  exists b, enforcement_bounds e ref = Ok b.
Proof.
  unfold enforcement_bounds, limits. destruct (e_add e) as [a|as_], (e_mul e) as [m|ms], (e_cmp e) as [c|cs]; intros H G; try (exfalso; apply H; reflexivity).
  - cbv zeta. destruct (string_dec c ">="); [eexists; reflexivity|]. destruct (string_dec c "<="); [eexists; reflexivity|]. exfalso. apply H.
    repeat (match goal with |- context [match ?x with _ => _ end] => destruct x end; try reflexivity; try congruence).
  - exfalso. apply H. destruct as_ as [|? [|? ?]]; reflexivity.
  - exfalso. apply H. destruct as_ as [|? [|? ?]]; reflexivity.
  - exfalso. apply H. destruct as_ as [|? [|? ?]]; try reflexivity. destruct ms as [|? [|? ?]]; reflexivity.
  - destruct as_ as [|a [|a' as_]]; [exfalso; apply H; reflexivity|exfalso; apply H; reflexivity|]. destruct ms as [|m [|m' ms]]; [exfalso; apply H; reflexivity|exfalso; apply H; reflexivity|].
    cbn [item nth_error bind].
    destruct (list_eq_dec string_dec cs _) as [-> |N].
    + cbn [bind fst snd]. rewrite (proj2 (any_gt_false _ _ (eq_trans (bound_length _ _ _) (eq_sym (bound_length _ _ _))))); [eexists; reflexivity|].
      rewrite bound_length. intros p P. rewrite !bound_nth by exact P. exact (G p _ _ P eq_refl).
    + destruct (list_eq_dec string_dec cs _) as [-> |N'].
      * cbn [bind fst snd]. rewrite (proj2 (any_gt_false _ _ (eq_trans (bound_length _ _ _) (eq_sym (bound_length _ _ _))))); [eexists; reflexivity|].
        rewrite bound_length. intros p P. rewrite !bound_nth by exact P. exact (G p _ _ P eq_refl).
      * exfalso. apply H. repeat (match goal with |- context [match ?x with _ => _ end] => destruct x end; try reflexivity; try congruence).
Qed.

Lemma addl_length a b : length a = length b -> length (addl a b) = length a.
Proof. intros E. unfold addl. rewrite map_length, combine_length. lia. Qed.
Lemma addl_nth a b p : length a = length b -> nth p (addl a b) 0 == nth p a 0 + nth p b 0.
Proof.
  intros E. unfold addl. revert b p E. induction a as [|x a IH]; intros [|y b] p E; cbn in *; try lia.
  - destruct p; reflexivity.
  - destruct p; [reflexivity|]. apply IH. lia.
Qed.
Lemma total_spec cs : forall d n, length d = n -> Forall (fun c => length (f_data c) = n) cs ->
  length (fold_left (fun t c => addl t (f_data c)) cs d) = n /\
  forall p, nth p (fold_left (fun t c => addl t (f_data c)) cs d) 0 == nth p d 0 + total_at cs p.
Proof.
  induction cs as [|c cs IH]; intros d n L F; cbn [fold_left].
  - split; [exact L|]. intros p. unfold total_at. cbn [map qsum]. lra.
  - inversion F; subst. destruct (IH (addl d (f_data c)) (length d)) as [A B]; [apply addl_length; lia|assumption|]. split; [exact A|]. intros p. rewrite B, addl_nth by lia.
    unfold total_at. cbn [map qsum]. lra.
Qed.

Definition shapes_ok (cubes : list field) (ref : field) : Prop := Forall (fun c => shape c = shape ref) cubes.
Lemma normalise_inv cubes ref pr ig out : normalise cubes ref pr ig = Ok out -> Forall whole cubes -> whole ref ->
  (2 <= length cubes)%nat /\ Forall (fun c => length (f_data c) = length (f_data ref)) cubes /\
  (pr = false -> forall c, In c cubes -> coords_found ref c = true) /\
  (ig = false -> forall p, (p < length (f_data ref))%nat -> total_at cubes p == 0 -> nth p (f_data ref) 0 == 0) /\
  length out = length cubes /\
  forall i d, (i < length cubes)%nat -> f_dims (nth i out d) = f_dims (nth i cubes d) /\ length (f_data (nth i out d)) = length (f_data ref) /\
    forall p, (p < length (f_data ref))%nat ->
      nth p (f_data (nth i out d)) 0 == nth p (f_data ref) 0 * nth p (f_data (nth i cubes d)) 0 / (if total_at cubes p =? 0 then 1 else total_at cubes p).
Proof.
  unfold normalise. destruct cubes as [|c0 [|c1 cs]]; try discriminate. set (rest := c1 :: cs). set (cubes := c0 :: rest). intros H W WR.
  destruct (existsb _ cubes) eqn:E1 in H; [discriminate|]. destruct (_ && negb pr)%bool eqn:E2 in H; [discriminate|]. destruct (existsb _ cubes) eqn:E3 in H; [discriminate|].
  set (tot := fold_left _ rest (f_data c0)) in H. destruct (_ && negb ig)%bool eqn:E4 in H; [discriminate|].
  assert (Len : Forall (fun c => length (f_data c) = length (f_data ref)) cubes).
  { apply Forall_forall. intros c Hc. assert (Wc := proj1 (Forall_forall _ _) W c Hc). unfold whole, size in *. rewrite Wc, WR. f_equal.
    destruct (list_eq_dec Nat.eq_dec (shape c) (shape ref)) as [X|X]; [exact X|]. exfalso. rewrite <- not_true_iff_false in E3. apply E3. apply existsb_exists. exists c. split; [exact Hc|].
    destruct (list_eq_dec Nat.eq_dec (shape c) (shape ref)); [contradiction|reflexivity]. }
  assert (T := total_spec rest (f_data c0) (length (f_data ref)) ltac:(inversion Len; assumption) ltac:(inversion Len; assumption)). fold tot in T. destruct T as [TL TV].
  assert (TV' : forall p, nth p tot 0 == total_at cubes p) by (intros p; rewrite TV; reflexivity).
  set (g := fun c : field => {| f_dims := f_dims c; f_data := zip3 (fun r x t => r * x / t) (f_data ref) (f_data c) (map (fun t => if t =? 0 then 1 else t) tot) |}).
  assert (EO : out = map g cubes) by (apply (f_equal (fun r => match r with Ok a => a | Err _ => [] end)) in H; symmetry; exact H).
  split; [cbn; lia|]. split; [exact Len|]. split; [|split; [|split]].
  - intros -> c Hc. rewrite andb_true_r in E2. apply negb_false_iff in E2. rewrite forallb_forall in E2. apply E2. exact Hc.
  - intros -> p P Z. cbn [negb] in E4. rewrite andb_true_r in E4. destruct (Qeqb_spec (nth p (f_data ref) 0) 0) as [X|X]; [exact X|]. exfalso. rewrite <- not_true_iff_false in E4. apply E4.
    apply existsb_exists. exists (nth p (combine tot (f_data ref)) (0, 0)). split; [apply nth_In; rewrite combine_length; lia|]. rewrite combine_nth by lia. cbn [fst snd].
    rewrite <- TV' in Z. apply Qeq_bool_iff in Z. rewrite Z. cbn [andb]. destruct (Qeqb_spec (nth p (f_data ref) 0) 0); [contradiction|reflexivity].
  - rewrite EO, map_length. reflexivity.
  - intros i d I.
    rewrite EO. rewrite (nth_map_lt g cubes i d) by exact I. unfold g. cbn [f_dims f_data]. set (c := nth i cubes d). assert (Lc : length (f_data c) = length (f_data ref)) by (apply (proj1 (Forall_forall _ _) Len); apply nth_In; exact I).
    split; [reflexivity|]. split; [apply zip3_length; [exact Lc|rewrite map_length; exact TL]|]. intros p P. rewrite (zip3_nth _ _ 0 0 1) by (try rewrite map_length; assumption).
    rewrite (nth_map_lt (fun t => if t =? 0 then 1 else t) tot p 0) by (rewrite TL; exact P). assert (V := TV' p).
    destruct (Qeqb_spec (nth p tot 0) 0) as [X|X]; destruct (Qeqb_spec (total_at cubes p) 0) as [Y|Y]; try (rewrite V in X; contradiction); [reflexivity|]. rewrite V. reflexivity.
Qed.
