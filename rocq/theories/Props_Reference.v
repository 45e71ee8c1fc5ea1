(** C44: forecasts kept consistent with a reference; C45: fields normalised to a reference total. *)
From Verif Require Import Base Model_Reference Spec_Reference Proofs_Reference.
Local Open Scope Q_scope.

Lemma enforce_inv e uo pr f r new w : enforce e uo pr f r = Ok (new, w) ->
  uo = true /\ length r = length f /\ f <> [] /\ length new = length f /\ (pr = true -> differs (e_add e) 0 = false /\ differs (e_mul e) 1 = false) /\ limits e 0 <> None /\
  (forall p, (p < length f)%nat -> exists lo hi lo' hi', limits e (nth p r 0) = Some (lo, hi) /\ same_opt lo lo' /\ same_opt hi hi' /\ (forall l h, lo = Some l -> hi = Some h -> l <= h) /\
    nth p new 0 = clip_opt (nth p f 0) lo' hi') /\
  w = match e_warn e with Some d => match map (fun p => Qabs (fst p - snd p)) (combine new f) with x :: xs => d <? qmaxl x xs | [] => false end | None => false end.
Proof.
  unfold enforce. destruct uo; [|discriminate]. cbn [negb]. destruct (_ && pr)%bool eqn:EP; [discriminate|]. destruct (enforcement_bounds e r) as [b|] eqn:EB; [|discriminate]. cbn [bind].
  destruct (Nat.eqb_spec (length r) (length f)) as [L|]; [|discriminate]. cbn [negb]. cbv zeta. set (nw := zip3 clip_opt f _ _). destruct (bounds_limits e r b EB) as [B1 [B2 [B3 B4]]]. rewrite L in *.
  assert (S1 := spread_length (length f) (fst b) B1). assert (S2 := spread_length (length f) (snd b) B2). assert (Ln : length nw = length f) by (apply zip3_length; assumption).
  destruct (map _ (combine nw f)) as [|x xs] eqn:EM; [discriminate|]. intros H. inversion H; subst new w; clear H.
  split; [reflexivity|]. split; [reflexivity|]. split; [intros ->; destruct nw; discriminate EM|]. split; [exact Ln|]. split.
  { intros ->. rewrite andb_true_r in EP. apply orb_false_iff in EP. exact EP. }
  split; [apply B3|]. split.
  - intros p P. destruct (B4 p P) as [lo [hi [E [S [S' O]]]]]. exists lo, hi, (at_opt (fst b) p), (at_opt (snd b) p). split; [exact E|]. split; [exact S|]. split; [exact S'|]. split; [exact O|].
    unfold nw. rewrite (zip3_nth _ _ 0 None None) by assumption. rewrite !spread_nth by assumption. reflexivity.
  - rewrite EM. reflexivity.
Qed.

(** Every value of the result lies within the limits given by the reference value at the same place; a value that was within them is kept; and no value within the limits is
    closer to the forecast than the one chosen. *)
Theorem C44_consistent e uo pr f r new w : enforce e uo pr f r = Ok (new, w) ->
  length new = length f /\ length r = length f /\
  forall p, (p < length f)%nat -> exists lo hi, limits e (nth p r 0) = Some (lo, hi) /\
    within lo hi (nth p new 0) /\ (within lo hi (nth p f 0) -> nth p new 0 == nth p f 0) /\
    (forall y, within lo hi y -> Qabs (nth p new 0 - nth p f 0) <= Qabs (y - nth p f 0)).
Proof.
  intros H. destruct (enforce_inv _ _ _ _ _ _ _ H) as [_ [L [_ [L' [_ [_ [V _]]]]]]]. split; [exact L'|]. split; [exact L|]. intros p P.
  destruct (V p P) as [lo [hi [lo' [hi' [E [S [S' [O ->]]]]]]]]. exists lo, hi. split; [exact E|]. split; [apply clip_opt_within; assumption|]. split; [apply clip_opt_same; assumption|].
  intros y Y. apply (clip_opt_nearest lo hi); assumption.
Qed.

(** Accepted exactly when the units can be converted, probabilities are not rescaled, the arguments are two amounts with a direction or two pairs of amounts with both directions,
    no reference value gives a lower limit above the upper one, and there is a reference value for each of the forecast's (at least one) values. *)
Theorem C44_accepted e uo pr f r :
  (exists o, enforce e uo pr f r = Ok o) <->
  uo = true /\ (pr = true -> (exists a, e_add e = One a /\ a == 0) /\ exists m, e_mul e = One m /\ m == 1) /\
  limits e 0 <> None /\ (forall x lo hi, In x r -> limits e x = Some (Some lo, Some hi) -> lo <= hi) /\ length r = length f /\ f <> [].
Proof.
  assert (D : forall a x, differs a x = false <-> exists v, a = One v /\ v == x).
  { intros [v|l] x; cbn [differs].
    - rewrite negb_false_iff, Qeqb_eq. split; [intros; exists v; auto|intros [v' [[= <-] E]]; exact E].
    - split; [discriminate|intros [v [E _]]; discriminate]. }
  split.
  - intros [[new w] H]. destruct (enforce_inv _ _ _ _ _ _ _ H) as [U [L [N [_ [P [Li [V _]]]]]]]. split; [exact U|]. split; [intros X; destruct (P X); split; apply D; assumption|].
    split; [exact Li|]. split; [|split; [exact L|exact N]]. intros x lo hi Hx E. destruct (In_nth r x 0 Hx) as [p [Hp <-]]. rewrite L in Hp. destruct (V p Hp) as [lo0 [hi0 [_ [_ [E' [_ [_ [O _]]]]]]]].
    rewrite E in E'. inversion E'; subst. exact (O _ _ eq_refl eq_refl).
  - intros [-> [P [Li [O [L N]]]]]. unfold enforce. cbn [negb]. replace (_ && pr)%bool with false.
    + destruct (bounds_total e r Li) as [b Eb]; [intros p lo hi Hp E; apply (O (nth p r 0)); [apply nth_In; exact Hp|exact E]|]. rewrite Eb. cbn [bind].
      destruct (bounds_limits e r b Eb) as [B1 [B2 _]]. rewrite L in *. rewrite Nat.eqb_refl. cbn [negb]. cbv zeta.
      set (nw := zip3 clip_opt f _ _). assert (Ln : length nw = length f) by (apply zip3_length; apply spread_length; assumption).
      destruct nw as [|x xs]; destruct f as [|y ys]; cbn in Ln; try lia; try congruence. cbn [combine map]. eexists. reflexivity.
    + symmetry. destruct pr; [|apply andb_false_r]. rewrite andb_true_r. apply orb_false_iff. destruct (P eq_refl). split; apply D; assumption.
Qed.

(** Enforcing twice is the same as enforcing once: the second call succeeds, changes nothing and, with a non-negative tolerance, gives no warning. *)
Theorem C44_idempotent e uo pr f r new w : enforce e uo pr f r = Ok (new, w) ->
  exists new' w', enforce e uo pr new r = Ok (new', w') /\ length new' = length new /\ (forall p, (p < length f)%nat -> nth p new' 0 == nth p new 0) /\
    (forall d, e_warn e = Some d -> 0 <= d -> w' = false).
Proof.
  intros H. assert (A : exists o, enforce e uo pr f r = Ok o) by (eexists; exact H). apply C44_accepted in A. destruct A as [U [P [Li [O [L N]]]]].
  destruct (C44_consistent _ _ _ _ _ _ _ H) as [Ln [_ C]].
  assert (B : exists o, enforce e uo pr new r = Ok o).
  { apply C44_accepted. split; [exact U|]. split; [exact P|]. split; [exact Li|]. split; [exact O|]. split; [lia|]. intros ->. destruct f; [congruence|discriminate Ln]. }
  destruct B as [[new' w'] B]. exists new', w'. split; [exact B|]. destruct (C44_consistent _ _ _ _ _ _ _ B) as [Ln' [_ C']]. split; [exact Ln'|].
  assert (S : forall p, (p < length f)%nat -> nth p new' 0 == nth p new 0).
  { intros p Hp. destruct (C p Hp) as [lo [hi [E [W _]]]]. destruct (C' p) as [lo' [hi' [E' [_ [K _]]]]]; [lia|]. rewrite E in E'. inversion E'; subst. apply K. exact W. }
  split; [exact S|]. intros d Ed Hd. destruct (enforce_inv _ _ _ _ _ _ _ B) as [_ [_ [_ [_ [_ [_ [_ ->]]]]]]]. rewrite Ed.
  destruct (map _ (combine new' new)) as [|x xs] eqn:EM; [reflexivity|]. apply Qltb_ge. apply qmaxl_lub. apply Forall_forall. intros y Hy. rewrite <- EM in Hy. apply in_map_iff in Hy.
  destruct Hy as [[u v] [<- Hy]]. cbn [fst snd]. destruct (In_nth _ _ (0, 0) Hy) as [p [Hp Ep]]. rewrite combine_length in Hp. rewrite combine_nth in Ep by exact Ln'. inversion Ep; subst.
  assert (X : nth p new' 0 - nth p new 0 == 0) by (rewrite S by lia; ring). rewrite X. exact Hd.
Qed.

(** The warning is given exactly when some value moved by more than the tolerance. *)
Theorem C44_warning e uo pr f r new w : enforce e uo pr f r = Ok (new, w) ->
  (w = true <-> exists d p, e_warn e = Some d /\ (p < length f)%nat /\ d < Qabs (nth p new 0 - nth p f 0)).
Proof.
  intros H. destruct (enforce_inv _ _ _ _ _ _ _ H) as [_ [L [N [Ln [_ [_ [_ ->]]]]]]]. destruct (e_warn e) as [d|]; [|split; [discriminate|intros [d [p [E _]]]; discriminate]].
  destruct (map _ (combine new f)) as [|x xs] eqn:EM; [exfalso; destruct new, f; try discriminate; congruence|]. rewrite Qltb_lt. split.
  - intros G. destruct (qmaxl_in x xs) as [y [Iy Ey]]. rewrite <- EM in Iy. apply in_map_iff in Iy. destruct Iy as [[u v] [<- Iy]]. cbn [fst snd] in Ey. destruct (In_nth _ _ (0, 0) Iy) as [p [Hp Ep]].
    rewrite combine_length in Hp. rewrite combine_nth in Ep by exact Ln. inversion Ep; subst. exists d, p. split; [reflexivity|]. split; [lia|]. lra.
  - intros [d' [p [[= <-] [Hp G]]]]. apply Qlt_le_trans with (1 := G). apply qmaxl_ge. rewrite <- EM. apply in_map_iff. exists (nth p (combine new f) (0, 0)). rewrite combine_nth by exact Ln. split; [reflexivity|].
    rewrite <- combine_nth by exact Ln. apply nth_In. rewrite combine_length. lia.
Qed.

(** Probabilities: accepted only without rescaling, where the result is again a probability; the two-sided form is refused for them even with the amounts 0 and 1. *)
Theorem C44_probability e uo f r new w : enforce e uo true f r = Ok (new, w) -> (forall x, In x f -> 0 <= x <= 1) -> (forall x, In x r -> 0 <= x <= 1) -> forall x, In x new -> 0 <= x <= 1.
Proof.
  intros H F R x Hx. assert (A : exists o, enforce e uo true f r = Ok o) by (eexists; exact H). apply C44_accepted in A. destruct A as [_ [P [_ [_ [L _]]]]].
  destruct (P eq_refl) as [[a [Ea Za]] [m [Em Zm]]]. destruct (enforce_inv _ _ _ _ _ _ _ H) as [_ [_ [_ [Ln [_ [_ [V _]]]]]]]. destruct (In_nth new x 0 Hx) as [p [Hp <-]]. rewrite Ln in Hp.
  assert (Fp := F (nth p f 0) ltac:(apply nth_In; exact Hp)). assert (Rp := R (nth p r 0) ltac:(apply nth_In; lia)). destruct (V p Hp) as [lo [hi [lo' [hi' [E [S [S' [_ ->]]]]]]]].
  unfold limits in E. rewrite Ea, Em in E. assert (Li : line a m (nth p r 0) == nth p r 0) by (unfold line; rewrite Za, Zm; ring).
  destruct (e_cmp e) as [c|]; [|discriminate]. assert (X : (lo = Some (line a m (nth p r 0)) /\ hi = None) \/ (lo = None /\ hi = Some (line a m (nth p r 0)))).
  { repeat (match type of E with context [match ?x with _ => _ end] => destruct x end; try discriminate E); inversion E; auto. }
  unfold clip_opt. destruct X as [[-> ->]|[-> ->]]; destruct lo' as [l'|], hi' as [h'|]; cbn in S, S'; try contradiction; cbv zeta; qmm; lra.
Qed.
Theorem C44_probability_pairs_refused e uo f r l : e_add e = Many l \/ e_mul e = Many l -> enforce e uo true f r = Err ValueError.
Proof.
  intros H. unfold enforce. destruct uo; [|reflexivity]. cbn [negb]. rewrite andb_true_r. replace (_ || _)%bool with true; [reflexivity|]. symmetry.
  destruct H as [-> | ->]; cbn [differs]; [reflexivity|apply orb_true_r].
Qed.
(** An argument given as a list with others that are not is refused, and so are operators other than >= and <=. *)
Theorem C44_mixed_refused e uo pr f r : (is_list (e_add e) <> is_list (e_mul e) \/ is_list (e_mul e) <> is_list (e_cmp e)) -> enforce e uo pr f r = Err ValueError.
Proof.
  intros H. unfold enforce. destruct uo; [|reflexivity]. cbn [negb]. destruct (_ && pr)%bool; [reflexivity|]. unfold enforcement_bounds.
  destruct (e_add e), (e_mul e), (e_cmp e); cbn [is_list] in H; try (destruct H; congruence); reflexivity.
Qed.
Example C44_case : enforce {| e_add := Many [-1; 1]; e_mul := Many [1; 1]; e_cmp := Many [">="; "<="]%string; e_warn := Some 2 |} true false [5; 10; 20] [8; 10; 11] = Ok ([-1 + 1 * 8; 10; 1 + 1 * 11], true) /\
  enforce {| e_add := Many [1; -1]; e_mul := Many [1; 1]; e_cmp := Many [">="; "<="]%string; e_warn := None |} true false [5; 10; 20] [8; 10; 11] = Err ValueError.
Proof. split; reflexivity. Qed.

(** ** C45 *)
(** The normalised fields keep their coordinates; at every point each is its share of the input total, times the reference. *)
Theorem C45_shares cubes ref pr ig out : normalise cubes ref pr ig = Ok out -> Forall whole cubes -> whole ref ->
  length out = length cubes /\ forall i d p, (i < length cubes)%nat -> (p < length (f_data ref))%nat ->
    f_dims (nth i out d) = f_dims (nth i cubes d) /\
    (~ total_at cubes p == 0 -> nth p (f_data (nth i out d)) 0 * total_at cubes p == nth p (f_data ref) 0 * nth p (f_data (nth i cubes d)) 0).
Proof.
  intros H W WR. destruct (normalise_inv _ _ _ _ _ H W WR) as [_ [_ [_ [_ [L V]]]]]. split; [exact L|]. intros i d p I P. destruct (V i d I) as [D [_ X]]. split; [exact D|]. intros N. rewrite (X p P).
  destruct (Qeqb_spec (total_at cubes p) 0); [contradiction|]. field. exact N.
Qed.
Lemma total_map (g : field -> Q) cubes out p d : length out = length cubes ->
  (forall i, (i < length cubes)%nat -> nth p (f_data (nth i out d)) 0 == g (nth i cubes d)) -> total_at out p == qsum (map g cubes).
Proof.
  unfold total_at. revert cubes. induction out as [|o out IH]; intros [|c cubes] L H; cbn [length] in L; try lia; cbn [map qsum]; [reflexivity|].
  rewrite (IH cubes) by (lia || (intros i I; apply (H (S i)); cbn; lia)). rewrite (H 0%nat) by (cbn; lia). reflexivity.
Qed.
(** Without ignore_zero_total the outputs sum to the reference at every point; with it, at every point where the inputs do not sum to zero. *)
Theorem C45_total cubes ref pr ig out p : normalise cubes ref pr ig = Ok out -> Forall whole cubes -> whole ref -> (p < length (f_data ref))%nat ->
  (ig = false \/ ~ total_at cubes p == 0) -> total_at out p == nth p (f_data ref) 0.
Proof.
  intros H W WR P G. destruct (normalise_inv _ _ _ _ _ H W WR) as [_ [_ [_ [Z [L V]]]]]. set (d := {| f_dims := []; f_data := [] |}).
  assert (X := total_map (fun c => nth p (f_data c) 0 * (nth p (f_data ref) 0 / (if total_at cubes p =? 0 then 1 else total_at cubes p))) cubes out p d L). cbv beta in X.
  rewrite X by (intros i I; destruct (V i d I) as [_ [_ Y]]; rewrite (Y p P); unfold Qdiv; ring).
  rewrite <- (map_map (fun c => nth p (f_data c) 0) (fun x => x * (nth p (f_data ref) 0 / (if total_at cubes p =? 0 then 1 else total_at cubes p)))). rewrite qsum_map_mul.
  change (qsum (map (fun c => nth p (f_data c) 0) cubes)) with (total_at cubes p). destruct (Qeqb_spec (total_at cubes p) 0) as [E|E].
  - destruct G as [-> |G]; [|contradiction]. rewrite E, (Z eq_refl p P E). reflexivity.
  - field. exact E.
Qed.
(** Non-negative fields stay non-negative; ignored points of non-negative fields stay zero. *)
Theorem C45_nonnegative cubes ref pr ig out i d p : normalise cubes ref pr ig = Ok out -> Forall whole cubes -> whole ref -> (i < length cubes)%nat -> (p < length (f_data ref))%nat ->
  (forall c, In c cubes -> 0 <= nth p (f_data c) 0) -> 0 <= nth p (f_data ref) 0 ->
  0 <= nth p (f_data (nth i out d)) 0 /\ (total_at cubes p == 0 -> nth p (f_data (nth i out d)) 0 == 0).
Proof.
  intros H W WR I P N R. destruct (normalise_inv _ _ _ _ _ H W WR) as [_ [_ [_ [_ [_ V]]]]]. destruct (V i d I) as [_ [_ Y]]. rewrite (Y p P).
  assert (T : 0 <= total_at cubes p) by (apply qsum_nonneg, Forall_forall; intros x Hx; apply in_map_iff in Hx; destruct Hx as [c [<- Hc]]; apply N; exact Hc).
  assert (C := N (nth i cubes d) ltac:(apply nth_In; exact I)). split.
  - destruct (Qeqb_spec (total_at cubes p) 0); (apply Qle_shift_div_l; [lra|]); assert (0 <= nth p (f_data ref) 0 * nth p (f_data (nth i cubes d)) 0) by (apply Qmult_le_0_compat; assumption); lra.
  - intros E. assert (Z : nth p (f_data (nth i cubes d)) 0 == 0).
    { assert (F : Forall (fun x => x == 0) (map (fun c => nth p (f_data c) 0) cubes)).
      { apply qsum_zero_nonneg; [|exact E]. apply Forall_forall. intros x Hx. apply in_map_iff in Hx. destruct Hx as [c [<- Hc]]. apply N. exact Hc. }
      rewrite Forall_forall in F. apply F. apply in_map_iff. exists (nth i cubes d). split; [reflexivity|]. apply nth_In. exact I. }
    rewrite Z. destruct (_ =? 0); unfold Qdiv; ring.
Qed.
(** A point whose inputs sum to zero while the reference does not is refused, unless ignored. So are fewer than two fields, a different number of dimensions and (except for
    probabilities) a coordinate that the reference does not have. *)
Theorem C45_refused cubes ref pr : Forall whole cubes -> whole ref ->
  ((exists p, (p < length (f_data ref))%nat /\ total_at cubes p == 0 /\ ~ nth p (f_data ref) 0 == 0) \/ (length cubes < 2)%nat \/
   (exists c, In c cubes /\ length (f_dims c) <> length (f_dims ref)) \/
   (pr = false /\ exists c k, In c cubes /\ In k (f_dims c) /\ forall r, In r (f_dims ref) -> dname r <> dname k \/ points_eq (dpoints k) (dpoints r) = false)) ->
  normalise cubes ref pr false = Err ValueError.
Proof.
  intros W WR H. assert (E : forall o, normalise cubes ref pr false <> Ok o).
  { intros o O. destruct (normalise_inv _ _ _ _ _ O W WR) as [L [_ [C [Z _]]]]. destruct H as [[p [P [T N]]]|[H|[[c [Ic D]]|[E [c [k [Ic [Ik K]]]]]]]].
    - apply N. exact (Z eq_refl p P T).
    - lia.
    - revert O. unfold normalise. destruct cubes as [|c0 [|c1 cs]]; try discriminate. replace (existsb _ _) with true; [discriminate|]. symmetry. apply existsb_exists. exists c. split; [exact Ic|].
      destruct (Nat.eqb_spec (length (f_dims c)) (length (f_dims ref))); [contradiction|reflexivity].
    - assert (X := C E c Ic). unfold coords_found in X. rewrite forallb_forall in X. specialize (X k Ik). apply existsb_exists in X. destruct X as [r [Ir Er]]. unfold coord_eq in Er.
      apply andb_true_iff in Er. destruct Er as [A B]. apply String.eqb_eq in A. destruct (K r Ir); congruence. }
  destruct (normalise cubes ref pr false) as [o|er] eqn:EN; [exfalso; exact (E o eq_refl)|]. f_equal. revert EN. unfold normalise. destruct cubes as [|c0 [|c1 cs]]; try (intros [= <-]; reflexivity).
  repeat (match goal with |- context [if ?b then _ else _] => destruct b end; try (intros [= <-]; reflexivity)).
Qed.
(** Normalising the result again changes nothing where the reference is not zero. *)
Theorem C45_idempotent cubes ref pr ig out out' i d p : normalise cubes ref pr ig = Ok out -> normalise out ref pr ig = Ok out' -> Forall whole cubes -> Forall whole out -> whole ref ->
  (i < length cubes)%nat -> (p < length (f_data ref))%nat -> ~ total_at cubes p == 0 -> nth p (f_data (nth i out' d)) 0 == nth p (f_data (nth i out d)) 0.
Proof.
  intros H H' W W' WR I P N. assert (T := C45_total _ _ _ _ _ p H W WR P (or_intror N)). destruct (normalise_inv _ _ _ _ _ H W WR) as [_ [_ [_ [_ [L V]]]]].
  destruct (normalise_inv _ _ _ _ _ H' W' WR) as [_ [_ [_ [_ [_ V']]]]]. destruct (V' i d ltac:(lia)) as [_ [_ Y]]. rewrite (Y p P). destruct (Qeqb_spec (total_at out p) 0) as [E|E].
  - rewrite T in E. destruct (V i d I) as [_ [_ Z]]. rewrite (Z p P), E. unfold Qdiv. ring.
  - rewrite T. rewrite T in E. field. exact E.
Qed.
(** Coordinates are matched by name, data by position: fields on a transposed grid are accepted, and then the values at the same coordinates do not sum to the reference. *)
Definition yx : list dimcoord := [{| dname := "y"; dpoints := [0; 1] |}; {| dname := "x"; dpoints := [0; 1] |}].
Definition xy : list dimcoord := [{| dname := "x"; dpoints := [0; 1] |}; {| dname := "y"; dpoints := [0; 1] |}].
Theorem C45_transposed_refuted : exists a b ref out, normalise [a; b] ref false false = Ok out /\ f_dims a = yx /\ f_dims b = yx /\ f_dims ref = xy /\
  ~ total_at out 1 == nth 2 (f_data ref) 0 (** y = 0, x = 1 is element 1 of the fields and element 2 of the reference *).
Proof.
  exists {| f_dims := yx; f_data := [1; 1; 1; 1] |}, {| f_dims := yx; f_data := [1; 1; 1; 1] |}, {| f_dims := xy; f_data := [2; 4; 6; 8] |}. eexists. split; [reflexivity|].
  repeat (split; [reflexivity|]). discriminate.
Qed.
Example C45_case : exists out, normalise [{| f_dims := yx; f_data := [1; 0; 3; 1] |}; {| f_dims := yx; f_data := [3; 0; 3; 0] |}] {| f_dims := yx; f_data := [8; 0; 3; 5] |} false false = Ok out /\
  map (fun f => map Qred (f_data f)) out = [[2; 0; 3 # 2; 5]; [6; 0; 3 # 2; 0]].
Proof. eexists. split; [reflexivity|]. vm_compute. reflexivity. Qed.

(** split_cubes_by_name keeps every cube exactly once, in order; the first list has the named ones. *)
Theorem C45_split {A} (cubes : list (string * A)) names : Permutation cubes (fst (split_by_name cubes (Some names)) ++ snd (split_by_name cubes (Some names))) /\
  (forall c, In c (fst (split_by_name cubes (Some names))) <-> In c cubes /\ In (fst c) names) /\
  (forall c, In c (snd (split_by_name cubes (Some names))) <-> In c cubes /\ ~ In (fst c) names) /\ split_by_name cubes None = (cubes, []).
Proof.
  cbn [split_by_name fst snd]. assert (M : forall c : string * A, existsb (String.eqb (fst c)) names = true <-> In (fst c) names).
  { intros c. rewrite existsb_exists. split; [intros [x [I E]]; apply String.eqb_eq in E; congruence|intros I; exists (fst c); split; [exact I|apply String.eqb_refl]]. }
  split; [|split; [|split; [|reflexivity]]].
  - induction cubes as [|c r IH]; cbn [filter]; [constructor|]. destruct (existsb (String.eqb (fst c)) names); cbn [negb app]; [constructor; exact IH|]. apply Permutation_cons_app. exact IH.
  - intros c. rewrite filter_In, M. reflexivity.
  - intros c. rewrite filter_In, negb_true_iff, <- not_true_iff_false, M. reflexivity.
Qed.

Print Assumptions C44_consistent.
Print Assumptions C44_accepted.
Print Assumptions C44_idempotent.
Print Assumptions C44_warning.
Print Assumptions C44_probability.
Print Assumptions C44_probability_pairs_refused.
Print Assumptions C44_mixed_refused.
Print Assumptions C45_shares.
Print Assumptions C45_total.
Print Assumptions C45_nonnegative.
Print Assumptions C45_refused.
Print Assumptions C45_idempotent.
Print Assumptions C45_transposed_refuted.
Print Assumptions C45_split.
