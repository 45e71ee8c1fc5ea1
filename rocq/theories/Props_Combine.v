(** C46: combining cubes. *)
From Verif Require Import Base Model_Reference Model_Combine Spec_Combine Proofs_Combine.
Local Open Scope Q_scope.

Lemma operator_known op : (exists o, operator_of op = Ok o) <-> known op.
Proof.
  unfold operator_of, known. cbn [existsb In]. rewrite !orb_false_r.
  repeat match goal with |- context [(?a =? ?b)%string] => destruct (String.eqb_spec a b); cbn [orb] end; try (split; [intros _; subst; tauto|intros _; eexists; reflexivity]).
  split; [intros [o H]; discriminate|]. intros H. exfalso. repeat (destruct H as [H|H]; [congruence|]). exact H.
Qed.

(** Two or more cubes on the same grid are combined, element by element, by the operation named: sum, difference from the first, product, maximum, minimum or mean of all the values
    (masked where any is masked), or sum of the unmasked values (masked where all are). *)
Theorem C46_combination op c0 rest : known op -> rest <> [] -> (forall c, In c rest -> same_grid c c0) ->
  exists r, combine_cubes op None (c0 :: rest) = Ok r /\ dims r = dims c0 /\
    forall idx, valid idx c0 -> same_value (vals r idx) (combination op (map (fun c => vals c idx) (c0 :: rest))).
Proof.
  intros K N G. apply operator_known in K. destruct K as [o O]. unfold combine_cubes. rewrite O. cbn [bind]. replace (length (c0 :: rest) <? 2)%nat with false by (destruct rest; [congruence|reflexivity]).
  replace (forallb _ rest) with true.
  - assert (F : Forall (fun c => Forall2 pairs (dims c) (dims c0) /\ same_members (slicing None c0) c c0) rest) by (apply Forall_forall; intros c Hc; apply same_grid_ok, G, Hc).
    destruct (combine_data_ok op o None c0 rest O F) as [r [E [D V]]]. exists r. split; [exact E|]. split; [exact D|]. intros idx H. cbn [map].
    replace (map (fun c => vals c idx) rest) with (map (picked idx) rest); [apply V, H|]. apply map_ext_in. intros c Hc. apply (same_grid_picked c c0); [apply G, Hc|exact H].
  - symmetry. apply forallb_forall. intros c Hc. apply alike_match; [apply (comparator_alike None)|]. apply G, Hc.
Qed.
(** Refused: fewer than two cubes, an unknown operation, a cube with as many dimensions as the first but not the same coordinates in the same order. *)
Theorem C46_refused op c0 rest c : (rest = [] \/ ~ known op \/ (In c rest /\ length (dims c) = length (dims c0) /\ ~ same_grid c c0)) -> combine_cubes op None (c0 :: rest) = Err ValueError.
Proof.
  intros H. unfold combine_cubes. destruct (operator_of op) as [o|er] eqn:O.
  - cbn [bind]. destruct H as [-> |[H|[I [L G]]]]; [reflexivity|exfalso; apply H, operator_known; exists o; exact O|]. destruct rest as [|c1 cs]; [contradiction|]. cbn [length Nat.ltb Nat.leb]. remember (c1 :: cs) as rest.
    replace (forallb _ rest) with false; [reflexivity|]. symmetry. rewrite <- not_true_iff_false. intros X. rewrite forallb_forall in X. apply G. apply match_same_grid; [exact L|]. exact (X c I).
  - cbn [bind]. unfold operator_of in O. repeat match type of O with context [if ?b then _ else _] => destruct b; [discriminate|] end. inversion O. reflexivity.
Qed.

(** The order of the cubes does not matter, except for a difference. *)
Lemma present_perm l m : Permutation l m -> Permutation (present l) (present m).
Proof. intros H. unfold present. apply Permutation_flat_map. exact H. Qed.
Lemma all_present_some l ps : all_present l = Some ps <-> l = map Some ps.
Proof.
  revert ps. induction l as [|[x|] l IH]; intros ps; cbn [all_present].
  - split; [intros [= <-]; reflexivity|intros H; destruct ps; [reflexivity|discriminate]].
  - destruct (all_present l) as [q|]; cbn [option_map].
    + split; [intros [= <-]; cbn; f_equal; apply IH; reflexivity|]. intros H. destruct ps as [|y ps]; [discriminate|]. cbn in H. inversion H; subst. f_equal. f_equal.
      assert (X := proj2 (IH ps) eq_refl). congruence.
    + split; [discriminate|]. intros H. destruct ps as [|y ps]; [discriminate|]. cbn in H. inversion H; subst. assert (X := proj2 (IH ps) eq_refl). discriminate X.
  - split; [discriminate|]. intros H. destruct ps; discriminate.
Qed.
Lemma all_present_none l : all_present l = None <-> In None l.
Proof.
  induction l as [|[x|] l IH]; cbn [all_present In].
  - split; [discriminate|contradiction].
  - destruct (all_present l); cbn [option_map]; split; try discriminate; intros H; [destruct H as [H|H]; [discriminate|apply IH in H; discriminate]|right; apply IH; reflexivity|reflexivity].
  - split; auto.
Qed.
Lemma all_present_perm l m : Permutation l m -> match all_present l, all_present m with Some a, Some b => Permutation a b | None, None => True | _, _ => False end.
Proof.
  intros H. destruct (all_present l) as [a|] eqn:A; destruct (all_present m) as [b|] eqn:B; [| | |exact I].
  - apply all_present_some in A. apply all_present_some in B. subst. apply present_perm in H. assert (P : forall q, present (map Some q) = q) by (induction q as [|x q IH]; cbn; [reflexivity|f_equal; exact IH]). rewrite !P in H. exact H.
  - apply all_present_none in B. apply Permutation_sym in H. apply (Permutation_in _ H) in B. apply all_present_none in B. congruence.
  - apply all_present_none in A. apply (Permutation_in _ H) in A. apply all_present_none in A. congruence.
Qed.
Lemma product_perm l m : Permutation l m -> product l == product m.
Proof. induction 1; unfold product in *; cbn [fold_right]; [reflexivity|rewrite IHPermutation; reflexivity|ring|rewrite IHPermutation1; exact IHPermutation2]. Qed.
Lemma extremes_perm x r y s : Permutation (x :: r) (y :: s) -> qmaxl x r == qmaxl y s /\ qminl x r == qminl y s.
Proof.
  intros H. destruct (qmaxl_in x r) as [a [Ia Ea]]. destruct (qmaxl_in y s) as [b [Ib Eb]]. destruct (qminl_in x r) as [c [Ic Ec]]. destruct (qminl_in y s) as [d [Id Ed]].
  assert (P1 := qmaxl_ge y s a (Permutation_in _ H Ia)). assert (P2 := qmaxl_ge x r b (Permutation_in _ (Permutation_sym H) Ib)).
  assert (P3 := qminl_le y s c (Permutation_in _ H Ic)). assert (P4 := qminl_le x r d (Permutation_in _ (Permutation_sym H) Id)). split; lra.
Qed.
Lemma combination_perm op l m : Permutation l m -> op <> "-"%string -> op <> "subtract"%string -> same_value (combination op l) (combination op m).
Proof.
  intros P N1 N2. unfold combination. destruct (op =? "masked_add")%string.
  - assert (Q := present_perm _ _ P). destruct (present l) as [|x r], (present m) as [|y s].
    + exact I.
    + apply Permutation_nil in Q. discriminate.
    + apply Permutation_sym, Permutation_nil in Q. discriminate.
    + apply (qsum_perm _ _ Q).
  - assert (Q := all_present_perm _ _ P). destruct (all_present l) as [[|x r]|], (all_present m) as [[|y s]|]; try contradiction; try exact I.
    + apply Permutation_nil in Q. discriminate.
    + apply Permutation_sym, Permutation_nil in Q. discriminate.
    + assert (S := qsum_perm _ _ Q). cbn [qsum] in S. assert (Pr := product_perm _ _ Q). unfold product in Pr. cbn [fold_right] in Pr. destruct (extremes_perm _ _ _ _ Q) as [Mx Mn]. assert (L := Permutation_length Q).
      cbn [existsb]. destruct (String.eqb_spec op "-"); [congruence|]. destruct (String.eqb_spec op "subtract"); [congruence|]. cbn [orb]. destruct (_ || _)%bool; [exact S|]. destruct (op =? "mean")%string.
      * cbn [same_value]. unfold Qlen. rewrite L, S. reflexivity.
      * destruct (_ || _)%bool; [exact Pr|]. destruct (op =? "max")%string; [exact Mx|]. destruct (op =? "min")%string; [exact Mn|exact I].
Qed.
Lemma same_value_trans a b c : same_value a b -> same_value b c -> same_value a c.
Proof. destruct a, b, c; cbn; try tauto. intros X Y. rewrite X. exact Y. Qed.
Lemma same_value_sym a b : same_value a b -> same_value b a.
Proof. destruct a, b; cbn; try tauto. intros X. rewrite X. reflexivity. Qed.
Theorem C46_order op a as_ b bs ra rb idx : op <> "-"%string -> op <> "subtract"%string -> Permutation (a :: as_) (b :: bs) -> (forall c c', In c (a :: as_) -> In c' (a :: as_) -> same_grid c c') ->
  combine_cubes op None (a :: as_) = Ok ra -> combine_cubes op None (b :: bs) = Ok rb -> valid idx a -> same_value (vals ra idx) (vals rb idx).
Proof.
  intros N1 N2 P G Ea Eb V. assert (Kn : known op). { apply operator_known. unfold combine_cubes in Ea. destruct (operator_of op) as [o|]; [exists o; reflexivity|discriminate]. }
  assert (Na : as_ <> []) by (intros ->; unfold combine_cubes in Ea; destruct (operator_of op); discriminate).
  assert (Nb : bs <> []) by (intros ->; apply Permutation_length in P; destruct as_; [congruence|discriminate P]).
  destruct (C46_combination op a as_ Kn Na) as [ra' [Ea' [_ Va]]]; [intros c Hc; apply G; [right; exact Hc|left; reflexivity]|].
  assert (Ib : In b (a :: as_)) by (apply (Permutation_in _ (Permutation_sym P)); left; reflexivity).
  destruct (C46_combination op b bs Kn Nb) as [rb' [Eb' [_ Vb]]]; [intros c Hc; apply G; [apply (Permutation_in _ (Permutation_sym P)); right; exact Hc|exact Ib]|].
  assert (ra = ra') by congruence. assert (rb = rb') by congruence. subst ra' rb'. apply same_value_trans with (1 := Va idx V). apply same_value_sym.
  assert (Vi : valid idx b). { unfold valid in *. assert (S := alike_sizes _ _ (G b a Ib ltac:(left; reflexivity))). clear -V S. revert S. revert V. generalize (dims a). generalize (dims b). revert idx.
    intros idx m. revert idx. induction m as [|d m IH]; intros idx [|d' m'] V S; cbn in S; try discriminate; inversion V; subst; constructor; inversion S; unfold size_of in *; [lia|]. apply (IH _ m'); assumption. }
  apply same_value_trans with (1 := Vb idx Vi). apply combination_perm; [|exact N1|exact N2]. apply Permutation_map, Permutation_sym, P.
Qed.

(** Broadcasting: a cube without the broadcast dimension counts as constant along it. *)
Theorem C46_broadcast op name c0 rest pos : known op -> rest <> [] -> index_of name (dims c0) = Some pos -> NoDup (map dname (dims c0)) ->
  (forall c, In c rest -> same_grid c c0 \/ lacks name pos c c0) ->
  exists r, combine_cubes op (Some name) (c0 :: rest) = Ok r /\ dims r = dims c0 /\
    forall idx, valid idx c0 -> same_value (vals r idx) (combination op (vals c0 idx :: map (fun c => if has_dim name c then vals c idx else vals c (without pos idx)) rest)).
Proof.
  intros K N Ix ND G. apply operator_known in K. destruct K as [o O]. unfold combine_cubes. rewrite O. cbn [bind]. replace (length (c0 :: rest) <? 2)%nat with false by (destruct rest; [congruence|reflexivity]).
  set (fix_ := fun c => if has_dim name c then c else reorder (map dname (dims c0)) (add_axis name c)).
  assert (H0 : has_dim name c0 = true). { destruct (index_of_split _ _ _ Ix) as [d1 [d [d2 [E [_ Nm]]]]]. unfold has_dim. apply existsb_exists. exists d. split; [rewrite E; apply in_or_app; right; left; reflexivity|apply String.eqb_eq; exact Nm]. }
  assert (Hs : forall c, same_grid c c0 -> has_dim name c = true).
  { intros c Gc. unfold has_dim in *. apply existsb_exists in H0. destruct H0 as [d [Id Nd]]. apply String.eqb_eq in Nd. assert (X : In name (map dname (dims c))) by (rewrite (alike_names _ _ Gc), <- Nd; apply in_map; exact Id).
    apply in_map_iff in X. destruct X as [d' [Nd' Id']]. apply existsb_exists. exists d'. split; [exact Id'|apply String.eqb_eq; exact Nd']. }
  assert (Hl : forall c, lacks name pos c c0 -> has_dim name c = false /\ has_scalar name c = false).
  { intros c [L1 [L2 _]]. split; rewrite <- not_true_iff_false; intros X; apply existsb_exists in X; destruct X as [x [Ix' Ex]]; apply String.eqb_eq in Ex.
    - apply L1. rewrite <- Ex. apply in_map. exact Ix'.
    - apply L2. rewrite Ex. exact Ix'. }
  unfold setup_broadcast. rewrite H0. cbn [orb negb]. set (f := fun c => if has_dim name c then Ok c else if has_scalar name c then Err TypeError else _).
  assert (M : mapM f (c0 :: rest) = Ok (c0 :: map fix_ rest)).
  { assert (Mr : mapM f rest = Ok (map fix_ rest)).
    { clear N. induction rest as [|c rest IH]; [reflexivity|]. cbn [mapM map]. unfold f at 1, fix_ at 1. destruct (G c (or_introl eq_refl)) as [X|X].
      - rewrite (Hs c X). cbn [bind]. rewrite IH by (intros c' Hc; apply G; right; exact Hc). reflexivity.
      - destruct (Hl c X) as [Y Z]. rewrite Y, Z. cbn [bind]. rewrite IH by (intros c' Hc; apply G; right; exact Hc). reflexivity. }
    cbn [mapM]. unfold f at 1. rewrite H0. cbn [bind]. rewrite Mr. reflexivity. }
  rewrite M. cbn [bind].
  assert (Each : forall c, In c rest -> Forall2 pairs (dims (fix_ c)) (dims c0) /\ same_members (slicing (Some name) c0) (fix_ c) c0 /\ dims_match (comparator (Some name)) (fix_ c) c0 = true /\
    forall idx, valid idx c0 -> picked idx (fix_ c) = if has_dim name c then vals c idx else vals c (without pos idx)).
  { intros c Hc. unfold fix_. destruct (G c Hc) as [X|X].
    - rewrite (Hs c X). destruct (same_grid_ok (Some name) c c0 X) as [A B]. split; [exact A|]. split; [exact B|]. split; [apply alike_match; [apply comparator_alike|exact X]|]. intros idx V. apply (same_grid_picked c c0); assumption.
    - rewrite (proj1 (Hl c X)). destruct (broadcast_one name pos c c0 Ix ND X) as [A [B [C D]]]. split; [exact A|]. split; [|split; [exact B|exact D]].
      unfold same_members. destruct (slicing (Some name) c0) as [ra|] eqn:S; [|exact I]. apply C. intros ->. unfold slicing in S.
      destruct (index_of "realization" (dims c0)) as [ra|] eqn:R; [|discriminate]. destruct (String.eqb_spec name "realization") as [E|E]; [discriminate|]. inversion S; subst ra.
      destruct (index_of_split _ _ _ R) as [x1 [x [x2 [E1 [L1 N1]]]]]. destruct (index_of_split _ _ _ Ix) as [y1 [y [y2 [E2 [L2 N2]]]]]. rewrite E1 in E2. apply app_inv_len in E2; [|lia]. destruct E2 as [_ E2]. inversion E2; subst. congruence. }
  replace (forallb _ (map fix_ rest)) with true.
  - assert (F : Forall (fun c => Forall2 pairs (dims c) (dims c0) /\ same_members (slicing (Some name) c0) c c0) (map fix_ rest)).
    { apply Forall_forall. intros c' Hc. apply in_map_iff in Hc. destruct Hc as [c [<- Hc]]. destruct (Each c Hc) as [A [B _]]. auto. }
    destruct (combine_data_ok op o (Some name) c0 (map fix_ rest) O F) as [r [E [D V]]]. exists r. split; [exact E|]. split; [exact D|]. intros idx H.
    replace (map (fun c => if has_dim name c then vals c idx else vals c (without pos idx)) rest) with (map (picked idx) (map fix_ rest)); [apply V, H|]. rewrite map_map. apply map_ext_in. intros c Hc.
    apply (Each c Hc). exact H.
  - symmetry. apply forallb_forall. intros c' Hc. apply in_map_iff in Hc. destruct Hc as [c [<- Hc]]. apply (Each c Hc).
Qed.

(** What the checks let through. A cube with fewer dimensions is accepted when its coordinates are the leading ones of the first cube, and is then applied along the trailing ones: *)
Definition dim (n : string) (l : list Q) : dimcoord := {| dname := n; dpoints := l |}.
Theorem C46_fewer_dimensions_refuted : exists a b r, dims a = [dim "y" [0; 1]; dim "x" [0; 1]] /\ dims b = [dim "y" [0; 1]] /\ combine_cubes "+" None [a; b] = Ok r /\
  exists y x, valid [y; x] a /\ ~ same_value (vals r [y; x]) (combination "+" [vals a [y; x]; vals b [y]]).
Proof.
  exists {| dims := [dim "y" [0; 1]; dim "x" [0; 1]]; scalars := []; vals := fun _ => Some 0 |}, {| dims := [dim "y" [0; 1]]; scalars := []; vals := fun idx => Some (Qn (nth 0 idx 0%nat)) |}. eexists.
  split; [reflexivity|]. split; [reflexivity|]. split; [reflexivity|]. exists 0%nat, 1%nat. split; [repeat constructor|]. cbv. discriminate.
Qed.
(** when broadcasting to another coordinate, a cube with one realization against several is accepted, and then only the first realization is combined: *)
Theorem C46_realization_refuted : exists a b r, dims a = [dim "realization" [0; 1]; dim "threshold" [5]] /\ dims b = [dim "realization" [0]; dim "threshold" [5]] /\
  combine_cubes "+" (Some "threshold"%string) [a; b] = Ok r /\ valid [1%nat; 0%nat] a /\ vals a [1%nat; 0%nat] = Some 1 /\ vals b [0%nat; 0%nat] = Some 1 /\ vals r [1%nat; 0%nat] = Some 1.
Proof.
  exists {| dims := [dim "realization" [0; 1]; dim "threshold" [5]]; scalars := []; vals := fun _ => Some 1 |}, {| dims := [dim "realization" [0]; dim "threshold" [5]]; scalars := []; vals := fun _ => Some 1 |}. eexists.
  split; [reflexivity|]. split; [reflexivity|]. split; [reflexivity|]. split; [repeat constructor|]. repeat split; reflexivity.
Qed.

(** MaxInTimeWindow: accepted only when every cube has time bounds and the periods are equal; then the result is the maximum. *)
Theorem C46_window cubes r : max_in_window cubes = Ok r ->
  (forall c, In c cubes -> exists l h, fst c = Some (l, h)) /\ (forall c c' l h l' h', In c cubes -> In c' cubes -> fst c = Some (l, h) -> fst c' = Some (l', h') -> h - l == h' - l') /\ combine_cubes "max" None (map snd cubes) = Ok r.
Proof.
  unfold max_in_window, check_periods. destruct (forallb _ (map fst cubes)) eqn:B; cbn [negb]; [|discriminate]. intros H. rewrite forallb_forall in B.
  assert (B' : forall c, In c cubes -> exists l h, fst c = Some (l, h)). { intros c Hc. specialize (B (fst c) (in_map fst _ _ Hc)). destruct (fst c) as [[l h]|]; [exists l, h; reflexivity|discriminate]. }
  split; [exact B'|]. destruct cubes as [|c0 cs]; [discriminate|]. destruct (B' c0 (or_introl eq_refl)) as [l0 [h0 E0]]. cbn [map] in H. rewrite E0 in H. destruct (forallb _ (map fst cs)) eqn:F; [|discriminate]. cbn [bind] in H. split; [|exact H].
  rewrite forallb_forall in F. assert (P : forall c l h, In c (c0 :: cs) -> fst c = Some (l, h) -> h - l == h0 - l0).
  { intros c l h [<- |Hc] E; [rewrite E0 in E; inversion E; subst; reflexivity|]. specialize (F (fst c) (in_map fst _ _ Hc)). rewrite E in F. apply Qeq_bool_iff in F. exact F. }
  intros c c' l h l' h' Hc Hc' E E'. rewrite (P _ _ _ Hc E), (P _ _ _ Hc' E'). reflexivity.
Qed.
Theorem C46_window_maximum b0 c0 rest r idx : max_in_window ((b0, c0) :: rest) = Ok r -> (forall c, In c rest -> same_grid (snd c) c0) -> valid idx c0 ->
  match vals r idx with
  | Some m => (forall c, In c ((b0, c0) :: rest) -> exists v, vals (snd c) idx = Some v /\ v <= m) /\ exists c v, In c ((b0, c0) :: rest) /\ vals (snd c) idx = Some v /\ m == v
  | None => exists c, In c ((b0, c0) :: rest) /\ vals (snd c) idx = None
  end.
Proof.
  intros H G V. destruct (C46_window _ _ H) as [_ [_ C]]. cbn [map snd] in C. assert (N : map snd rest <> []) by (intros E; rewrite E in C; discriminate).
  destruct (C46_combination "max" c0 (map snd rest) ltac:(unfold known; cbn; tauto) N) as [r' [E [_ X]]]; [intros c Hc; apply in_map_iff in Hc; destruct Hc as [p [<- Hp]]; apply G; exact Hp|].
  assert (r = r') by congruence. subst r'. specialize (X idx V). unfold combination in X. cbn [String.eqb Ascii.eqb Bool.eqb existsb orb] in X.
  change (map (fun c => vals c idx) (c0 :: map snd rest)) with (map (fun c => vals c idx) (map snd ((b0, c0) :: rest))) in X. rewrite map_map in X. set (cubes := (b0, c0) :: rest) in *.
  destruct (all_present (map (fun c => vals (snd c) idx) cubes)) as [[|x ps]|] eqn:A.
  - apply all_present_some in A. discriminate A.
  - destruct (vals r idx) as [m|]; [|contradiction]. cbn [same_value] in X. apply all_present_some in A.
    assert (Q : forall c, In c cubes -> exists v, In v (x :: ps) /\ vals (snd c) idx = Some v).
    { intros c Hc. assert (I : In (vals (snd c) idx) (map Some (x :: ps))) by (rewrite <- A; apply in_map_iff; exists c; auto). apply in_map_iff in I. destruct I as [v [Ev Iv]]. exists v. auto. }
    split.
    + intros c Hc. destruct (Q c Hc) as [v [Iv Ev]]. exists v. split; [exact Ev|]. rewrite X. apply qmaxl_ge. exact Iv.
    + destruct (qmaxl_in x ps) as [y [Iy Ey]]. assert (I : In (Some y) (map (fun c => vals (snd c) idx) cubes)) by (rewrite A; apply in_map; exact Iy). apply in_map_iff in I. destruct I as [c [Ec Ic]]. exists c, y. split; [exact Ic|]. split; [exact Ec|]. lra.
  - destruct (vals r idx) as [m|]; [contradiction|]. apply all_present_none in A. apply in_map_iff in A. destruct A as [c [Ec Ic]]. exists c. auto.
Qed.

(** expand_bounds: the new bounds are the smallest interval covering every input's bounds (or points, when none has bounds), the new point is the upper bound; a mixture is refused. *)
Theorem C46_bounds coords p lo hi : expand coords = Ok (p, (lo, hi)) ->
  p = hi /\
  ((forall c, In c coords -> snd c = None /\ lo <= fst c <= hi) /\ (exists c c', In c coords /\ In c' coords /\ lo == fst c /\ hi == fst c') \/
   (forall c, In c coords -> exists l h, snd c = Some (l, h) /\ lo <= l <= hi /\ lo <= h <= hi) /\
   (exists c c' l h l' h', In c coords /\ In c' coords /\ snd c = Some (l, h) /\ snd c' = Some (l', h') /\ (lo == l \/ lo == h) /\ (hi == l' \/ hi == h'))).
Proof.
  unfold expand. destruct (forallb _ coords) eqn:B.
  - rewrite forallb_forall in B. destruct (map fst coords) as [|x r] eqn:M; [discriminate|]. intros H. inversion H; subst; clear H. split; [reflexivity|]. left. split.
    + intros c Hc. split; [specialize (B c Hc); destruct (snd c); [discriminate|reflexivity]|]. assert (I : In (fst c) (x :: r)) by (rewrite <- M; apply in_map; exact Hc). split; [apply qminl_le, I|apply qmaxl_ge, I].
    + destruct (qminl_in x r) as [a [Ia Ea]]. destruct (qmaxl_in x r) as [b [Ib Eb]]. rewrite <- M in Ia, Ib. apply in_map_iff in Ia. apply in_map_iff in Ib. destruct Ia as [c [<- Ic]]. destruct Ib as [c' [<- Ic']]. exists c, c'. auto.
  - clear B. destruct (forallb _ coords) eqn:B; [|discriminate]. rewrite forallb_forall in B. set (ends := flat_map _ coords). assert (Ends : forall x, In x ends <-> exists c l h, In c coords /\ snd c = Some (l, h) /\ (x = l \/ x = h)).
    { intros x. unfold ends. rewrite in_flat_map. split.
      - intros [c [Hc Hx]]. destruct (snd c) as [[l h]|] eqn:E; [|contradiction]. exists c, l, h. destruct Hx as [<- |[<- |[]]]; auto.
      - intros [c [l [h [Hc [E Hx]]]]]. exists c. split; [exact Hc|]. rewrite E. destruct Hx as [-> | ->]; cbn; auto. }
    clearbody ends. destruct ends as [|x r]; [discriminate|]. intros H. inversion H; subst; clear H. split; [reflexivity|]. right. split.
    + intros c Hc. specialize (B c Hc). destruct (snd c) as [[l h]|] eqn:E; [|discriminate]. exists l, h. split; [reflexivity|].
      assert (I : In l (x :: r)) by (apply Ends; exists c, l, h; auto). assert (J : In h (x :: r)) by (apply Ends; exists c, l, h; auto). repeat split; (apply qminl_le || apply qmaxl_ge); assumption.
    + destruct (qminl_in x r) as [a [Ia Ea]]. destruct (qmaxl_in x r) as [b [Ib Eb]]. apply Ends in Ia. apply Ends in Ib. destruct Ia as [c [l [h [Ic [E Ha]]]]]. destruct Ib as [c' [l' [h' [Ic' [E' Hb]]]]].
      exists c, c', l, h, l', h'. repeat (split; [assumption|]). split; [destruct Ha as [-> | ->]; auto|destruct Hb as [-> | ->]; auto].
Qed.

Definition case_a : cube := {| dims := [dim "realization" [0; 1]; dim "x" [0; 1; 2]]; scalars := []; vals := fun idx => match idx with [r; x] => if ((r =? 1) && (x =? 2))%nat then None else Some (Qn (r + 10 * x)) | _ => None end |}.
Definition case_b : cube := {| dims := [dim "realization" [0; 1]; dim "x" [0; 1; 2]]; scalars := []; vals := fun _ => Some 5 |}.
Definition case_c : cube := {| dims := [dim "x" [0; 1; 2]]; scalars := []; vals := fun idx => Some (Qn (nth 0 idx 0%nat)) |}.
Example C46_case : same_grid case_b case_a /\ lacks "realization" 0 case_c case_a /\
  (exists r, combine_cubes "mean" None [case_a; case_b] = Ok r /\ option_map Qred (vals r [1; 1]%nat) = Some 8 /\ vals r [1; 2]%nat = None) /\
  (exists r, combine_cubes "masked_add" None [case_a; case_b] = Ok r /\ option_map Qred (vals r [1; 2]%nat) = Some 5) /\
  (exists r, combine_cubes "*" (Some "realization"%string) [case_a; case_c] = Ok r /\ option_map Qred (vals r [1; 1]%nat) = Some 11) /\
  (exists r, max_in_window [(Some (0, 3600), case_a); (Some (3600, 7200), case_b)] = Ok r /\ option_map Qred (vals r [0; 0]%nat) = Some 5) /\
  expand [(3600, Some (0, 3600)); (7200, Some (3600, 7200))] = Ok (7200, (0, 7200)).
Proof.
  split; [repeat constructor|]. split.
  { split; [cbn; intros [H|[]]; discriminate|]. split; [intros []|]. repeat constructor. }
  repeat split; try (eexists; repeat split; reflexivity).
Qed.

Print Assumptions C46_combination.
Print Assumptions C46_refused.
Print Assumptions C46_order.
Print Assumptions C46_broadcast.
Print Assumptions C46_fewer_dimensions_refuted.
Print Assumptions C46_realization_refuted.
Print Assumptions C46_window.
Print Assumptions C46_window_maximum.
Print Assumptions C46_bounds.
