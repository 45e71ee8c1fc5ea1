(** C95: checks of coordinates, lists of cubes and masks. *)
From Verif Require Import Base Model_Manip Proofs_Temporal Proofs_Spot Props_Manip Model_Check.
Local Open Scope nat_scope.

(** ** Arguments *)
(** The items of an argument, from left to right. *)
Inductive items {A} : arg A -> list A -> Prop :=
| items_item x : items (Item x) [x]
| items_none : items (Nested []) []
| items_some a l xs ys : items a xs -> items (Nested l) ys -> items (Nested (a :: l)) (xs ++ ys).
Lemma arg_ind' {A} (P : arg A -> Prop) : (forall x, P (Item x)) -> (forall l, Forall P l -> P (Nested l)) -> forall a, P a.
Proof. intros H1 H2. fix IH 1. intros [x|l]; [apply H1|]. apply H2. induction l as [|a l IHl]; constructor; [apply IH|exact IHl]. Qed.
Lemma flatten_items {A} (a : arg A) : items a (flatten a).
Proof. induction a as [x|l H] using arg_ind'; [constructor|]. induction H as [|a l Ha H IH]; [constructor|]. cbn [flatten flat_map]. constructor; [exact Ha|exact IH]. Qed.
Lemma items_unique {A} (a : arg A) xs : items a xs -> xs = flatten a.
Proof. induction 1; [reflexivity|reflexivity|]. subst. reflexivity. Qed.
Lemma all_some_iff {A} (l : list (option A)) r : all_some l = Some r <-> l = map Some r.
Proof.
  revert r. induction l as [|[x|] l IH]; intro r; cbn [all_some].
  - split; [intro H; injection H as <-; reflexivity|destruct r; [reflexivity|discriminate]].
  - destruct (all_some l) as [t|]; cbn [option_map].
    + split; [intro H; injection H as <-; cbn; f_equal; apply IH; reflexivity|]. destruct r as [|y r]; [discriminate|]. intro H. injection H as -> H. apply IH in H. congruence.
    + split; [discriminate|]. destruct r as [|y r]; [discriminate|]. intro H. injection H as -> H. apply IH in H. discriminate.
  - split; [discriminate|destruct r; discriminate].
Qed.
(** C95: however the cubes are nested in lists, they are all used, from left to right; it is a TypeError exactly if something else is among them and a ValueError exactly if there is nothing. *)
Theorem C95_cubelist {A} (args : list (arg (option A))) :
  (forall l, as_cubelist args = Ok l <-> l <> [] /\ items (Nested args) (map Some l)) /\ (as_cubelist args = Err TypeError <-> exists l, items (Nested args) l /\ In None l) /\ (as_cubelist args = Err ValueError <-> items (Nested args) []) /\
  (forall e, as_cubelist args = Err e -> e = TypeError \/ e = ValueError).
Proof.
  unfold as_cubelist. pose proof (flatten_items (Nested args)) as F. remember (flatten (Nested args)) as xs eqn:E.
  assert (U : forall l, items (Nested args) l -> l = xs) by (intros l H; rewrite E; apply items_unique; exact H). destruct (all_some xs) as [l|] eqn:X.
  - apply all_some_iff in X. split; [|split; [|split]].
    + intro r. destruct l as [|x l]; split; intro H; [discriminate| |apply Ok_inj in H; subst r; split; [discriminate|rewrite X in F; exact F]|].
      * destruct H as [N H]. apply U in H. rewrite X in H. destruct r; [congruence|discriminate].
      * destruct H as [_ H]. apply U in H. rewrite X in H. f_equal. clear -H. revert r H. generalize (x :: l) as t. induction t as [|a t IH]; intros [|b r] H; try discriminate; [reflexivity|]. injection H as -> H. f_equal. apply IH. exact H.
    + split; [destruct l; discriminate|]. intros (r & R & N). apply U in R. subst r. rewrite X in N. apply in_map_iff in N as (? & ? & _). discriminate.
    + split; [destruct l; [|discriminate]; intros _; rewrite X in F; exact F|]. intro H. apply U in H. rewrite X in H. destruct l; [reflexivity|discriminate].
    + intros e H. destruct l; [right; congruence|discriminate].
  - assert (N : In None xs). { clear -X. induction xs as [|[x|] xs IH]; [discriminate| |left; reflexivity]. cbn [all_some] in X. right. apply IH. destruct (all_some xs); [discriminate|reflexivity]. }
    split; [|split; [|split]].
    + intro r. split; [discriminate|]. intros [_ H]. apply U in H. rewrite <- H in N. apply in_map_iff in N as (? & ? & _). discriminate.
    + split; [intros _; exists xs; auto|reflexivity].
    + split; [discriminate|]. intro H. apply U in H. rewrite <- H in N. destruct N.
    + intros e H. left. congruence.
Qed.

(** ** Order of dimensions *)
Lemma smem_iff s l : smem s l = true <-> In s l.
Proof. unfold smem. rewrite existsb_exists. split; [intros (x & X & E); apply String.eqb_eq in E; subst; exact X|intro H; exists s; split; [exact H|apply String.eqb_refl]]. Qed.
Lemma dim_names_in {A} (c : cube A) s : In s (dim_names c) <-> In (Some s) (map fst (cb_dims c)).
Proof.
  unfold dim_names. rewrite in_flat_map, in_map_iff. split.
  - intros (d & D & X). exists d. destruct (fst d) as [t|]; [|destruct X]. destruct X as [->|[]]. auto.
  - intros (d & D & X). exists d. rewrite D. split; [exact X|left; reflexivity].
Qed.
(** The dimensions the new cube gets: scalar coordinates that are dimensions of the cube, in front. *)
Definition promoted (dims : list string) (aux : list (string * option nat)) : list string := map fst (filter (fun a => smem (fst a) dims) aux).
Definition axes (ps : list string) : list (option string * nat) := map (fun s => (Some s, 1)) ps.
Lemma promote_inv {A} dims : forall aux (c new : cube A), promote dims aux c = Ok new -> cb_dims new = axes (rev (promoted dims aux)) ++ cb_dims c /\ (forall f, at_labels f new = at_labels f c) /\ (forall s k, In (s, Some k) aux -> ~ In s dims).
Proof.
  induction aux as [|[s d] aux IH]; intros c new H; cbn [promote] in H.
  - apply Ok_inj in H. subst new. split; [reflexivity|]. split; [reflexivity|]. intros s k [].
  - unfold promoted. cbn [filter fst]. destruct (smem s dims) eqn:M.
    + destruct d as [k|]; [discriminate|]. apply IH in H as (D & V & N). split; [|split].
      * rewrite D. cbn [new_axis cb_dims map fst rev]. fold (promoted dims aux). unfold axes. rewrite map_app, <- app_assoc. reflexivity.
      * intro f. rewrite V. unfold at_labels, new_axis. cbn [cb_dims cb_data map tl]. reflexivity.
      * intros t k [E|I0]; [discriminate|exact (N t k I0)].
    + apply IH in H as (D & V & N). fold (promoted dims aux). split; [exact D|]. split; [exact V|]. intros t k [E|I0]; [|exact (N t k I0)]. injection E as -> ->. intro X. apply smem_iff in X. congruence.
Qed.
Lemma promoted_rev dims aux : promoted dims (rev aux) = rev (promoted dims aux).
Proof.
  unfold promoted. rewrite <- map_rev. f_equal. induction aux as [|a aux IH]; [reflexivity|]. cbn [rev]. rewrite filter_app, IH. cbn [filter]. destruct (smem (fst a) dims); cbn [rev]; [reflexivity|apply app_nil_r].
Qed.
Lemma insert_at_inv l d m : insert_at l d = Ok m -> d <= length l /\ m = firstn d l ++ d :: skipn d l.
Proof. unfold insert_at. destruct (Nat.leb_spec d (length l)); [|discriminate]. intro E. apply Ok_inj in E. auto. Qed.
Lemma insert_all_perm ds : forall l m, insert_all l ds = Ok m -> Permutation m (ds ++ l).
Proof.
  induction ds as [|d ds IH]; intros l m H; cbn [insert_all] in H; [apply Ok_inj in H; subst; reflexivity|]. destruct (insert_at l d) as [l'|] eqn:E; [|discriminate]. cbn [bind] in H. apply insert_at_inv in E as [_ ->]. rewrite (IH _ _ H). cbn [app].
  rewrite <- Permutation_middle. rewrite firstn_skipn. symmetry. apply Permutation_middle.
Qed.
Lemma filter_none {X} (f : X -> bool) l : (forall x, In x l -> f x = false) -> filter f l = [].
Proof. intro H. induction l as [|x l IH]; [reflexivity|]. cbn [filter]. rewrite (H x (or_introl eq_refl)). apply IH. intros; apply H; right; assumption. Qed.
Lemma insert_all_rest ds : forall (f : nat -> bool) l m, (forall d, In d ds -> f d = false) -> insert_all l ds = Ok m -> filter f m = filter f l.
Proof.
  induction ds as [|d ds IH]; intros f l m F H; cbn [insert_all] in H; [apply Ok_inj in H; subst; reflexivity|]. destruct (insert_at l d) as [l'|] eqn:E; [|discriminate]. cbn [bind] in H. apply insert_at_inv in E as [_ ->]. rewrite (IH f _ _ (fun x X => F x (or_intror X)) H). rewrite filter_app. cbn [filter]. rewrite (F d (or_introl eq_refl)), <- filter_app, firstn_skipn. reflexivity.
Qed.
Lemma insert_keeps ds : forall l m k, StronglySorted lt ds -> (forall d, In d ds -> k < d) -> insert_all l ds = Ok m -> k < length l -> nth k m 0 = nth k l 0.
Proof.
  induction ds as [|d ds IH]; intros l m k S B H L; cbn [insert_all] in H; [apply Ok_inj in H; subst; reflexivity|]. destruct (insert_at l d) as [l'|] eqn:E; [|discriminate]. cbn [bind] in H. apply insert_at_inv in E as [Ld ->]. inversion S as [|? ? S' F]; subst. pose proof (B d (or_introl eq_refl)) as Bd. rewrite (IH _ m k S' (fun x X => B x (or_intror X)) H).
  - rewrite app_nth1 by (rewrite firstn_length_le; lia). rewrite <- (firstn_skipn d l) at 2. rewrite app_nth1 by (rewrite firstn_length_le; lia). reflexivity.
  - rewrite app_length, firstn_length_le by lia. lia.
Qed.
Lemma insert_all_places ds : forall l m, StronglySorted lt ds -> insert_all l ds = Ok m -> forall d, In d ds -> d < length m /\ nth d m 0 = d.
Proof.
  induction ds as [|e ds IH]; intros l m S H d D; [destruct D|]. pose proof (Permutation_length (insert_all_perm _ _ _ H)) as Lm. cbn [insert_all] in H. destruct (insert_at l e) as [l'|] eqn:E; [|discriminate]. cbn [bind] in H. inversion S as [|? ? S' F]; subst. destruct D as [->|D]; [|exact (IH _ _ S' H d D)]. apply insert_at_inv in E as [Le ->]. rewrite app_length in Lm. cbn [length] in Lm.
  split; [lia|]. rewrite (insert_keeps ds (firstn d l ++ d :: skipn d l) m d S'); [| |exact H|].
  - rewrite app_nth2 by (rewrite firstn_length_le; lia). rewrite firstn_length_le, Nat.sub_diag by lia. reflexivity.
  - rewrite Forall_forall in F. exact F.
  - rewrite app_length, firstn_length_le by lia. cbn [length]. lia.
Qed.
Lemma insert_all_ok ds : forall l, StronglySorted lt ds -> (forall d, In d ds -> d < length l + length ds) -> exists m, insert_all l ds = Ok m.
Proof.
  induction ds as [|d ds IH]; intros l So B; [eexists; reflexivity|]. inversion So as [|? ? S' F]; subst. rewrite Forall_forall in F.
  assert (L : d <= length l). { assert (N : NoDup (d :: ds)). { clear -So. induction So as [|x r So IH F]; constructor; [|exact IH]. rewrite Forall_forall in F. intro X. specialize (F x X). lia. }
    assert (I0 : incl (d :: ds) (seq d (length l + Datatypes.S (length ds) - d))). { intros x X. cbn [length] in B. pose proof (B x X). apply in_seq. destruct X as [->|X]; [lia|]. specialize (F x X). lia. }
    pose proof (NoDup_incl_length N I0) as Q. rewrite seq_length in Q. cbn [length] in Q, B. pose proof (B d (or_introl eq_refl)). lia. }
  cbn [insert_all]. unfold insert_at. apply Nat.leb_le in L as Lb. rewrite Lb. cbn [bind]. apply IH; [exact S'|]. intros x X. rewrite app_length, firstn_length_le by lia. cbn [length]. rewrite skipn_length. specialize (B x (or_intror X)). cbn [length] in B. lia.
Qed.
Lemma mapM_cons_ok {A B} (f : A -> result B) a l r : mapM f (a :: l) = Ok r -> exists b t, f a = Ok b /\ mapM f l = Ok t /\ r = b :: t.
Proof. cbn [mapM]. destruct (f a) as [b|]; [|discriminate]. cbn [bind]. destruct (mapM f l) as [t|]; [|discriminate]. cbn [bind]. intro H. apply Ok_inj in H. eauto. Qed.
Lemma order_labels {A} (new : cube A) : forall dims order, mapM (fun s => match dim_of s 0 (cb_dims new) with Some k => Ok k | None => Err KeyError end) dims = Ok order -> map (label_of (cb_dims new)) order = map Some dims.
Proof.
  induction dims as [|s dims IH]; intros order H; [cbn in H; apply Ok_inj in H; subst; reflexivity|]. apply mapM_cons_ok in H as (k & t & E & H & ->). pose proof (dim_of_spec s (cb_dims new) 0) as D. destruct (dim_of s 0 (cb_dims new)) as [j|]; [|discriminate]. apply Ok_inj in E. subst j. destruct D as (m & -> & Lm & L). cbn [Nat.add map]. unfold label_of at 1. rewrite L, (IH t H). reflexivity.
Qed.
Lemma flat_some {X} (l : list (option X)) r : l = map Some r -> flat_map (fun s => match s with Some x => [x] | None => [] end) l = r.
Proof. intros ->. induction r as [|x r IH]; [reflexivity|]. cbn. rewrite IH. reflexivity. Qed.
Lemma dim_names_flat {A} (c : cube A) : dim_names c = flat_map (fun s => match s with Some x => [x] | None => [] end) (map fst (cb_dims c)).
Proof. unfold dim_names. induction (cb_dims c) as [|d l IH]; [reflexivity|]. cbn [flat_map map]. rewrite IH. reflexivity. Qed.
Lemma dim_names_all {A} (c : cube A) : length (cb_dims c) <= length (dim_names c) -> map fst (cb_dims c) = map Some (dim_names c).
Proof.
  unfold dim_names. induction (cb_dims c) as [|[[s|] n] l IH]; intro H; [reflexivity| |].
  - cbn [flat_map fst app length map] in *. f_equal. apply IH. lia.
  - exfalso. cbn [flat_map fst app length] in H. assert (Q : length (flat_map (fun d : option string * nat => match fst d with Some s => [s] | None => [] end) l) <= length l). { clear. induction l as [|[[s|] n] l IH]; cbn [flat_map fst app length]; lia. } lia.
Qed.
(** C95: the result has the dimensions of the new cube, scalar coordinates that are dimensions of the cube in front as dimensions of one; no value is moved; the dimensions shared with the cube are in its order. All coordinates of the new cube have different names. *)
Theorem C95_ordered {A} dims (c : cube A) aux exceptions out : check_coordinates dims c aux exceptions = Ok out -> NoDup (dim_names c ++ map fst aux) ->
  Permutation (cb_dims out) (axes (promoted dims aux) ++ cb_dims c) /\ (forall f, at_labels f out = at_labels f c) /\ filter (fun s => smem s dims) (dim_names out) = dims /\ length (cb_dims out) = length dims + length exceptions.
Proof.
  unfold check_coordinates. intros H Nd. destruct (promote dims (rev aux) c) as [new|] eqn:P; [|discriminate]. cbn [bind] in H. apply promote_inv in P as (D & V & Na). rewrite promoted_rev, rev_involutive in D. destruct (Nat.eqb_spec (length dims + length exceptions) (length (dim_names new))) as [C|C]; [|discriminate]. cbn [negb] in H.
  destruct (mapM _ dims) as [order|] eqn:O; [|discriminate]. cbn [bind] in H. destruct (mapM _ exceptions) as [only|] eqn:X; [|discriminate]. cbn [bind] in H. destruct (insert_all order only) as [l|] eqn:I0; [|discriminate]. cbn [bind] in H. assert (T : transpose new l = Ok out) by (destruct dims; [destruct l; [exact H|discriminate]|exact H]).
  apply transpose_inv in T as (L & N & B & Do & Vo). split; [rewrite Do, <- D; apply perm_dims; assumption|]. split; [intro f; rewrite Vo, V; reflexivity|].
  assert (Lo : length order = length dims) by (rewrite <- (map_length (label_of (cb_dims new))), (order_labels new dims order O); apply map_length).
  assert (Lx : length only = length exceptions). { clear -X. revert only X. induction exceptions as [|e r IH]; intros only X; [cbn in X; apply Ok_inj in X; subst; reflexivity|]. apply mapM_cons_ok in X as (b & t & _ & X & ->). cbn [length]. rewrite (IH t X). reflexivity. }
  pose proof (insert_all_perm _ _ _ I0) as Pm. pose proof (Permutation_length Pm) as Lp. rewrite app_length in Lp. split; [|rewrite Do, map_length; lia].
  assert (Full : map fst (cb_dims new) = map Some (dim_names new)) by (apply dim_names_all; lia).
  assert (Nn : NoDup (map fst (cb_dims new))).
  { rewrite D, map_app. unfold axes. rewrite map_map. cbn [fst]. assert (Np : NoDup (promoted dims aux ++ dim_names c)).
    { assert (NoDup (map fst aux ++ dim_names c)) as Q by (apply (Permutation_NoDup (l := dim_names c ++ map fst aux)); [apply Permutation_app_comm|exact Nd]). clear -Q. unfold promoted. induction aux as [|a aux IH]; [exact Q|]. cbn [map filter app] in *. inversion Q as [|? ? Q1 Q2]; subst. destruct (smem (fst a) dims); [|exact (IH Q2)]. cbn [map app]. constructor; [|exact (IH Q2)]. intro Z. apply Q1. apply in_app_iff in Z as [Z|Z]; apply in_app_iff; [left|right; exact Z]. apply in_map_iff in Z as (b & E & Z). apply filter_In in Z as [Z _]. apply in_map_iff. eauto. }
    assert (Fc : map fst (cb_dims c) = map Some (dim_names c)). { apply dim_names_all. pose proof C as C'. rewrite <- Lo in C'. assert (Ln : length (cb_dims new) = length (dim_names new)) by (rewrite <- (map_length fst), Full, map_length; reflexivity). assert (dim_names new = promoted dims aux ++ dim_names c). { unfold dim_names at 1. rewrite D, flat_map_app. f_equal. unfold axes. clear. induction (promoted dims aux) as [|s r IH]; [reflexivity|]. cbn. rewrite IH. reflexivity. }
      rewrite H0, app_length in Ln. rewrite D, app_length in Ln. unfold axes in Ln. rewrite map_length in Ln. lia. }
    rewrite Fc, <- map_app. apply FinFun.Injective_map_NoDup; [intros x y E; injection E; auto|exact Np]. }
  (* the names of the result *)
  assert (E : map fst (cb_dims out) = map (label_of (cb_dims new)) l). { rewrite Do, map_map. reflexivity. }
  set (keep := fun d => negb (nmem d only)). pose proof (order_labels new dims order O) as Lab.
  assert (Kf : filter keep l = order). { rewrite (insert_all_rest only keep order l); [|intros d Hd; unfold keep; apply negb_false_iff, nmem_iff; exact Hd|exact I0]. apply filter_all. intros d Hd. unfold keep. apply negb_true_iff. apply not_true_is_false. intro Q. apply nmem_iff in Q. assert (ND : NoDup (only ++ order)) by (apply (Permutation_NoDup Pm); exact N). clear -ND Hd Q. induction only as [|x r IH]; [destruct Q|]. cbn [app] in ND. inversion ND as [|? ? N1 N2]; subst. destruct Q as [->|Q]; [apply N1, in_app_iff; right; exact Hd|exact (IH Q N2)]. }
  assert (G : forall d, In d l -> match label_of (cb_dims new) d with Some s => smem s dims = keep d | None => False end).
  { intros d Hd. pose proof (B d Hd) as Bd. destruct (label_of (cb_dims new) d) as [s|] eqn:Ls.
    - unfold keep. destruct (nmem d only) eqn:M; cbn [negb].
      + apply not_true_is_false. intro Q. apply smem_iff in Q. assert (exists k, In k order /\ label_of (cb_dims new) k = Some s) as (k & K & Lk). { assert (In (Some s) (map Some dims)) as Z by (apply in_map; exact Q). rewrite <- Lab in Z. apply in_map_iff in Z as (k & Z1 & Z2). eauto. }
        assert (k = d). { apply (label_inj (cb_dims new)); [exact Nn| |exact Bd|congruence]. apply B. rewrite <- Kf in K. apply filter_In in K as [K _]. exact K. }
        subst k. apply nmem_iff in M. rewrite <- Kf in K. apply filter_In in K as [_ K]. unfold keep in K. apply negb_true_iff in K. apply nmem_iff in M. congruence.
      + apply smem_iff. assert (In d order) as Z by (rewrite <- Kf; apply filter_In; split; [exact Hd|unfold keep; rewrite M; reflexivity]). apply (in_map (label_of (cb_dims new))) in Z. rewrite Lab, Ls in Z. apply in_map_iff in Z as (t & Z1 & Z2). congruence.
    - unfold label_of in Ls. assert (Z : In None (map fst (cb_dims new))). { rewrite <- Ls. apply in_map, nth_In. exact Bd. } rewrite Full in Z. apply in_map_iff in Z as (? & ? & _). discriminate. }
  rewrite dim_names_flat, E. clear -G Kf Lab. rewrite <- Kf in Lab. revert dims G Lab. intros dims G Lab.
  assert (Q : forall l', (forall d, In d l' -> match label_of (cb_dims new) d with Some s => smem s dims = keep d | None => False end) -> filter (fun s => smem s dims) (flat_map (fun s => match s with Some x => [x] | None => [] end) (map (label_of (cb_dims new)) l')) = flat_map (fun s => match s with Some x => [x] | None => [] end) (map (label_of (cb_dims new)) (filter keep l'))).
  { induction l' as [|d l' IH]; intro G'; [reflexivity|]. cbn [map flat_map filter]. pose proof (G' d (or_introl eq_refl)) as Gd. specialize (IH (fun x X => G' x (or_intror X))). destruct (label_of (cb_dims new) d) as [s|] eqn:Ls; [|contradiction]. cbn [app filter]. rewrite Gd. destruct (keep d); cbn [map flat_map]; [rewrite Ls; cbn [app]|]; rewrite IH; reflexivity. }
  rewrite (Q l G). apply flat_some. exact Lab.
Qed.
(** C95: an exception that is a dimension of the new cube keeps its place, if the exceptions are named in the order of their places. *)
Definition at_place (l : list (option string * nat)) (s : string) (k : nat) : Prop := k < length l /\ fst (nth k l (None, 0)) = Some s.
Lemma dim_of_place dims s k : NoDup (map fst dims) -> at_place dims s k -> dim_of s 0 dims = Some k.
Proof.
  intros N [L E]. pose proof (dim_of_spec s dims 0) as D. destruct (dim_of s 0 dims) as [j|].
  - destruct D as (m & -> & Lm & F). cbn [Nat.add]. f_equal. apply (label_inj dims); auto. unfold label_of. congruence.
  - exfalso. apply D. rewrite <- E. apply in_map, nth_In. exact L.
Qed.
Theorem C95_exceptions_stay {A} dims (c : cube A) aux exceptions places out : check_coordinates dims c aux exceptions = Ok out -> NoDup (map fst (axes (promoted dims aux) ++ cb_dims c)) -> Forall2 (at_place (axes (promoted dims aux) ++ cb_dims c)) exceptions places -> StronglySorted lt places ->
  Forall2 (at_place (cb_dims out)) exceptions places.
Proof.
  unfold check_coordinates. intros H Nd Pl So. destruct (promote dims (rev aux) c) as [new|] eqn:P; [|discriminate]. cbn [bind] in H. apply promote_inv in P as (D & V & Na). rewrite promoted_rev, rev_involutive in D. rewrite <- D in Nd, Pl. destruct (length dims + length exceptions =? length (dim_names new)); [|discriminate]. cbn [negb] in H.
  destruct (mapM _ dims) as [order|]; [|discriminate]. cbn [bind] in H. assert (X : mapM (position (length (cb_dims new) - length (cb_dims c)) aux new) exceptions = Ok places).
  { clear -Pl Nd. induction Pl as [|s k ss ks E Pl IH]; [reflexivity|]. cbn [mapM]. unfold position at 1. rewrite (dim_of_place _ s k Nd E). cbn [bind]. rewrite IH. reflexivity. }
  rewrite X in H. cbn [bind] in H. destruct (insert_all order places) as [l|] eqn:I0; [|discriminate]. cbn [bind] in H. assert (T : transpose new l = Ok out) by (destruct dims; [destruct l; [exact H|discriminate]|exact H]). apply transpose_inv in T as (L & N & B & Do & _).
  pose proof (insert_all_places places order l So I0) as Q. clear -Pl Q Do B. rewrite Do. revert Q. induction Pl as [|s k ss ks [E1 E2] Pl IH]; intro Q; constructor; [|apply IH; intros d Hd; apply Q; right; exact Hd].
  destruct (Q k (or_introl eq_refl)) as [Lk Ek]. split; [rewrite map_length; exact Lk|]. rewrite (nth_map_lt (fun d => nth d (cb_dims new) (None, 0)) l k 0 (None, 0)) by exact Lk. rewrite Ek. exact E2.
Qed.
(** C95: the same for exceptions that are auxiliary coordinates: they are where they were, after the new dimensions. *)
Definition stands {A} (aux : list (string * option nat)) (new : list (option string * nat)) (c : cube A) (s : string) (k : nat) : Prop :=
  at_place new s k \/ (~ In (Some s) (map fst new) /\ exists j, assoc s aux = Some (Some j) /\ k = length new - length (cb_dims c) + j).
Theorem C95_auxiliary_exceptions_stay {A} dims (c : cube A) aux exceptions places out : check_coordinates dims c aux exceptions = Ok out -> let new := axes (promoted dims aux) ++ cb_dims c in NoDup (map fst new) -> Forall2 (stands aux new c) exceptions places -> StronglySorted lt places ->
  forall k, In k places -> k < length (cb_dims out) /\ nth k (cb_dims out) (None, 0) = nth k new (None, 0).
Proof.
  unfold check_coordinates. intros H. cbv zeta. intros Nd Pl So. destruct (promote dims (rev aux) c) as [new|] eqn:P; [|discriminate]. cbn [bind] in H. apply promote_inv in P as (D & V & Na). rewrite promoted_rev, rev_involutive in D. rewrite <- D in *. destruct (length dims + length exceptions =? length (dim_names new)); [|discriminate]. cbn [negb] in H.
  destruct (mapM _ dims) as [order|]; [|discriminate]. cbn [bind] in H. assert (X : mapM (position (length (cb_dims new) - length (cb_dims c)) aux new) exceptions = Ok places).
  { clear -Pl Nd. induction Pl as [|s k ss ks E Pl IH]; [reflexivity|]. cbn [mapM]. unfold position at 1. destruct E as [E|(E & j & Ea & ->)]; [rewrite (dim_of_place _ s k Nd E)|].
    - cbn [bind]. rewrite IH. reflexivity.
    - pose proof (dim_of_spec s (cb_dims new) 0) as Q. destruct (dim_of s 0 (cb_dims new)) as [i|]; [exfalso; destruct Q as (m & _ & Lm & F); apply E; rewrite <- F; apply in_map, nth_In, Lm|]. rewrite Ea. cbn [bind]. rewrite IH. reflexivity. }
  rewrite X in H. cbn [bind] in H. destruct (insert_all order places) as [l|] eqn:I0; [|discriminate]. cbn [bind] in H. assert (T : transpose new l = Ok out) by (destruct dims; [destruct l; [exact H|discriminate]|exact H]). apply transpose_inv in T as (L & N & B & Do & _).
  pose proof (insert_all_places places order l So I0) as Q. intros k K. destruct (Q k K) as [Lk Ek]. rewrite Do. split; [rewrite map_length; exact Lk|]. rewrite (nth_map_lt (fun d => nth d (cb_dims new) (None, 0)) l k 0 (None, 0)) by exact Lk. rewrite Ek. reflexivity.
Qed.
(** C95: it succeeds if the dimensions of the cube and the exceptions are those of the new cube. *)
Theorem C95_order_possible {A} dims (c : cube A) aux exceptions places : dims <> [] -> (forall s k, In (s, Some k) aux -> ~ In s dims) -> NoDup (promoted dims aux ++ dim_names c) -> ~ In None (map fst (cb_dims c)) -> Permutation (dims ++ exceptions) (promoted dims aux ++ dim_names c) ->
  Forall2 (at_place (axes (promoted dims aux) ++ cb_dims c)) exceptions places -> StronglySorted lt places -> exists out, check_coordinates dims c aux exceptions = Ok out.
Proof.
  intros Ne Na Nd An Pm Pl So. unfold check_coordinates.
  assert (P : exists new, promote dims (rev aux) c = Ok new). { assert (Na' : forall s k, In (s, Some k) (rev aux) -> ~ In s dims) by (intros s k I0; apply in_rev in I0; exact (Na s k I0)). clear -Na'. revert c. induction (rev aux) as [|[s d] r IH]; intro c; cbn [promote]; [eauto|]. destruct (smem s dims) eqn:M; [|apply IH; intros t k I0; apply (Na' t k); right; exact I0]. destruct d as [k|]; [exfalso; apply (Na' s k); [left; reflexivity|apply smem_iff; exact M]|]. apply IH. intros t k I0. apply (Na' t k). right. exact I0. }
  destruct P as (new & P). rewrite P. cbn [bind]. apply promote_inv in P as (D & V & _). rewrite promoted_rev, rev_involutive in D. rewrite <- D in Pl.
  assert (Dn : dim_names new = promoted dims aux ++ dim_names c). { unfold dim_names at 1. rewrite D, flat_map_app. f_equal. unfold axes. clear. induction (promoted dims aux) as [|s r IH]; [reflexivity|]. cbn. rewrite IH. reflexivity. }
  assert (Fn : map fst (cb_dims new) = map Some (dim_names new)). { rewrite Dn, D, !map_app. f_equal; [unfold axes; rewrite map_map; reflexivity|]. unfold dim_names. clear -An. induction (cb_dims c) as [|[[s|] n] l IH]; [reflexivity| |exfalso; apply An; left; reflexivity]. cbn [map flat_map fst app]. f_equal. apply IH. intro X. apply An. right. exact X. }
  assert (Nn : NoDup (map fst (cb_dims new))). { rewrite Fn, Dn. apply FinFun.Injective_map_NoDup; [intros x y E; injection E; auto|exact Nd]. }
  assert (Ln : length (cb_dims new) = length dims + length exceptions). { rewrite <- (map_length fst), Fn, map_length, Dn, <- (Permutation_length Pm), app_length. reflexivity. }
  assert (Lc : (length dims + length exceptions =? length (dim_names new)) = true). { apply Nat.eqb_eq. rewrite Dn, <- (Permutation_length Pm), app_length. reflexivity. }
  rewrite Lc. cbn [negb].
  assert (Or : forall s, In s dims -> exists k, dim_of s 0 (cb_dims new) = Some k /\ at_place (cb_dims new) s k).
  { intros s I0. pose proof (dim_of_spec s (cb_dims new) 0) as Q. destruct (dim_of s 0 (cb_dims new)) as [j|]; [destruct Q as (m & -> & Lm & F); exists m; split; [reflexivity|split; assumption]|]. exfalso. apply Q. rewrite Fn. apply in_map. rewrite Dn. apply (Permutation_in (l := dims ++ exceptions) _ Pm). apply in_app_iff. left. exact I0. }
  assert (Om : exists order, mapM (fun s => match dim_of s 0 (cb_dims new) with Some k => Ok k | None => Err KeyError end) dims = Ok order /\ Forall2 (at_place (cb_dims new)) dims order).
  { clear -Or. induction dims as [|s dims IH]; [exists []; split; [reflexivity|constructor]|]. destruct (Or s (or_introl eq_refl)) as (k & E & Pk). destruct IH as (o & Eo & Fo); [intros t I0; apply Or; right; exact I0|]. exists (k :: o). cbn [mapM]. rewrite E. cbn [bind]. rewrite Eo. split; [reflexivity|constructor; assumption]. }
  destruct Om as (order & Eo & Fo). rewrite Eo. cbn [bind]. assert (X : mapM (position (length (cb_dims new) - length (cb_dims c)) aux new) exceptions = Ok places).
  { clear -Pl Nn. induction Pl as [|s k ss ks E Pl IH]; [reflexivity|]. cbn [mapM]. unfold position at 1. rewrite (dim_of_place _ s k Nn E). cbn [bind]. rewrite IH. reflexivity. }
  rewrite X. cbn [bind]. assert (Lo : length order = length dims) by (clear -Fo; induction Fo; [reflexivity|cbn [length]; congruence]). assert (Lp : length places = length exceptions) by (clear -Pl; induction Pl; [reflexivity|cbn [length]; congruence]).
  assert (Bp : forall d, In d places -> d < length order + length places). { intros d Hd. rewrite Lo, Lp, <- Ln. clear -Pl Hd. induction Pl as [|s k ss ks [E _] Pl IH]; [destruct Hd|]. destruct Hd as [->|Hd]; [exact E|exact (IH Hd)]. }
  destruct (insert_all_ok places order So Bp) as (l & El). rewrite El. cbn [bind]. destruct dims as [|d0 dims]; [contradiction|]. pose proof (insert_all_perm _ _ _ El) as Pl'.
  assert (Pq : Forall2 (at_place (cb_dims new)) (exceptions ++ d0 :: dims) (places ++ order)) by (apply Forall2_app; assumption).
  apply transpose_ok.
  - rewrite (Permutation_length Pl'), app_length, Lo, Lp, Ln. apply Nat.add_comm.
  - apply (Permutation_NoDup (Permutation_sym Pl')). assert (Nq : NoDup (exceptions ++ d0 :: dims)). { apply (Permutation_NoDup (l := promoted (d0 :: dims) aux ++ dim_names c)); [|exact Nd]. transitivity ((d0 :: dims) ++ exceptions); [symmetry; exact Pm|apply Permutation_app_comm]. }
    clear -Pq Nq. induction Pq as [|s k ss ks [E1 E2] Pq IH]; [constructor|]. inversion Nq as [|? ? N1 N2]; subst. constructor; [|exact (IH N2)]. intro K. apply N1. clear -Pq K E2. induction Pq as [|t j ts js [_ F] Pq IH]; [destruct K|]. destruct K as [->|K]; [left; congruence|right; exact (IH K)].
  - intros d Hd. apply (Permutation_in (l := l) _ Pl') in Hd. clear -Pq Hd. induction Pq as [|t j ts js [F _] Pq IH]; [destruct Hd|]. destruct Hd as [->|Hd]; [exact F|exact (IH Hd)].
Qed.
(** C95: "keep coordinate in its current position" whatever the order of the exceptions: refuted, they may move, or the call fails. *)
Definition plain_cube (l : list string) : cube nat := {| cb_dims := map (fun s => (Some s, 2)) l; cb_data := fun _ => 0 |}.
Theorem C95_exceptions_order_refuted : (exists out, check_coordinates ["x"; "y"] (plain_cube ["a"; "x"; "b"; "y"]) [] ["b"; "a"] = Ok out /\ dim_names out = ["a"; "x"; "y"; "b"])%string /\ check_coordinates ["x"]%string (plain_cube ["a"; "x"; "b"]%string) [] ["b"; "a"]%string = Err IndexError /\
  (exists out, check_coordinates ["x"; "y"] (plain_cube ["a"; "x"; "b"; "y"]) [] ["a"; "b"] = Ok out /\ dim_names out = ["a"; "x"; "b"; "y"])%string.
Proof. split; [|split]; [eexists; split; [vm_compute; reflexivity|reflexivity]|vm_compute; reflexivity|eexists; split; [vm_compute; reflexivity|reflexivity]]. Qed.
(** C95: a dimension that is missing is a KeyError, not a CoordinateNotFoundError, if the number of dimensions happens to be right. *)
Example C95_auxiliary_case : (exists out, check_coordinates ["x"; "t"] (plain_cube ["x"; "y"]) [("t", None); ("lat", Some 1)] ["lat"] = Ok out /\ dim_names out = ["x"; "t"; "y"])%string /\ stands [("t", None); ("lat", Some 1)]%string ((Some "t"%string, 1) :: cb_dims (plain_cube ["x"; "y"]%string)) (plain_cube ["x"; "y"]%string) "lat"%string 2.
Proof. split; [eexists; split; reflexivity|]. right. split; [cbn; intros [H|[H|[H|[]]]]; discriminate|]. exists 1. split; reflexivity. Qed.
Theorem C95_missing_error_refuted : check_coordinates ["x"; "y"]%string (plain_cube ["x"; "z"]%string) [] [] = Err KeyError /\ check_coordinates ["x"; "y"]%string (plain_cube ["x"]%string) [] [] = Err CoordinateNotFoundError.
Proof. split; reflexivity. Qed.
(** C95: the mismatch is the difference (symmetric if two-way) of the sets of names. *)
Theorem C95_mismatch {A B} (a : cube A) (b : cube B) two s : In s (mismatch a b two) <-> (In s (dim_names b) /\ ~ In s (dim_names a)) \/ (two = true /\ In s (dim_names a) /\ ~ In s (dim_names b)).
Proof.
  assert (G : forall l, negb (smem s l) = true <-> ~ In s l) by (intro l; rewrite negb_true_iff, <- smem_iff; destruct (smem s l); split; congruence).
  unfold mismatch. rewrite in_app_iff, filter_In, G. destruct two; [rewrite filter_In, G; tauto|]. cbn [In]. split; [intros [X|[]]; auto|intros [X|[X _]]; [auto|discriminate]].
Qed.
(** C95: times are accepted exactly if there are two cubes or more, all with or all without bounds as asked, at equal times, and - unless the first cube has a blend time - with equal reference times. *)
Theorem C95_times {A} (eqb : A -> A -> bool) (E : forall x y, eqb x y = true <-> x = y) (l : list (timed_cube A)) (bounded : bool) :
  assert_times eqb l bounded = Ok tt <-> (2 <= length l /\ (forall x, In x l -> tc_bounded x = bounded) /\ (forall x y, In x l -> In y l -> tc_time x = tc_time y) /\
    (match hd_error l with Some c => tc_blend c = true | None => False end \/ exists r, forall x, In x l -> tc_reference x = Some r)).
Proof.
  destruct l as [|c [|d l]]; [split; [discriminate|intros (H & _); cbn in H; lia]|split; [discriminate|intros (H & _); cbn in H; lia]|]. unfold assert_times. remember (c :: d :: l) as all. cbn [hd_error tl]. assert (Tl : tl all = d :: l) by (subst; reflexivity). assert (Hc : In c all) by (subst; left; reflexivity).
  assert (B : forallb (fun x => Bool.eqb (tc_bounded x) bounded) all = true <-> forall x, In x all -> tc_bounded x = bounded). { rewrite forallb_forall. split; intros H x X; specialize (H x X); [apply eqb_prop; exact H|rewrite H; apply eqb_reflx]. }
  assert (T : forallb (fun x => eqb (tc_time x) (tc_time c)) (tl all) = true <-> forall x y, In x all -> In y all -> tc_time x = tc_time y).
  { rewrite forallb_forall, Tl. split.
    - intro H. assert (G : forall x, In x all -> tc_time x = tc_time c) by (intros x X; rewrite Heqall in X; destruct X as [->|X]; [reflexivity|apply E, H; exact X]). intros x y X Y. rewrite (G x X), (G y Y). reflexivity.
    - intros H x X. apply E. apply H; [subst; right; exact X|exact Hc]. }
  assert (R : (let* rs := mapM (fun x => match tc_reference x with Some t => Ok t | None => Err CoordinateNotFoundError end) all in match rs with t :: ts => if forallb (fun x => eqb x t) ts then Ok tt else Err ValueError | [] => Ok tt end) = Ok tt <-> exists r, forall x, In x all -> tc_reference x = Some r).
  { assert (M : forall k rs, mapM (fun x : timed_cube A => match tc_reference x with Some t => Ok t | None => Err CoordinateNotFoundError end) k = Ok rs <-> map tc_reference k = map Some rs).
    { clear. induction k as [|x k IH]; intro rs; cbn [mapM map]; [split; [intro H; apply Ok_inj in H; subst; reflexivity|destruct rs; [reflexivity|discriminate]]|]. destruct (tc_reference x) as [t|]; cbn [bind]; [|split; [discriminate|destruct rs; discriminate]]. destruct (mapM _ k) as [ts|] eqn:Mk; cbn [bind].
      - split; [intro H; apply Ok_inj in H; subst; cbn [map]; f_equal; apply IH; reflexivity|]. destruct rs as [|r rs]; [discriminate|]. intro H. injection H as -> H. apply IH in H. apply Ok_inj in H. subst. reflexivity.
      - split; [discriminate|]. destruct rs as [|r rs]; [discriminate|]. intro H. injection H as -> H. apply IH in H. discriminate. }
    destruct (mapM _ all) as [rs|e] eqn:Mr; cbn [bind].
    - apply M in Mr. destruct rs as [|t ts]; [subst all; discriminate|]. destruct (forallb (fun x => eqb x t) ts) eqn:F.
      + split; [intros _|reflexivity]. exists t. intros x X. rewrite forallb_forall in F. assert (In (tc_reference x) (map Some (t :: ts))) as Q by (rewrite <- Mr; apply in_map; exact X). apply in_map_iff in Q as (y & <- & Y). destruct Y as [->|Y]; [reflexivity|]. specialize (F y Y). apply E in F. subst. reflexivity.
      + split; [discriminate|]. intros (r & G). exfalso. assert (F' : forallb (fun x => eqb x t) ts = true); [|congruence]. apply forallb_forall. intros y Y. apply E. assert (G' : forall z, In z (t :: ts) -> z = r). { intros z Z. assert (In (Some z) (map tc_reference all)) as Q by (rewrite Mr; apply in_map; exact Z). apply in_map_iff in Q as (x & Q & X). rewrite (G x X) in Q. congruence. } rewrite (G' y (or_intror Y)), (G' t (or_introl eq_refl)). reflexivity.
    - split; [discriminate|]. intros (r & G). exfalso. assert (Q : mapM (fun x => match tc_reference x with Some t => Ok t | None => Err CoordinateNotFoundError end) all = Ok (map (fun _ => r) all)); [|congruence]. apply M. rewrite map_map. apply map_ext_in. exact G. }
  subst all. cbn match. remember (c :: d :: l) as all. assert (L2 : 2 <= length all) by (subst; cbn; lia).
  destruct (forallb (fun x => Bool.eqb (tc_bounded x) bounded) all) eqn:Eb; cbn [negb]; [|split; [discriminate|intros (_ & X & _); apply B in X; congruence]].
  destruct (forallb (fun x => eqb (tc_time x) (tc_time c)) (tl all)) eqn:Et; cbn [negb]; [|split; [discriminate|intros (_ & _ & X & _); apply T in X; congruence]].
  assert (Hh : hd_error all = Some c) by (subst; reflexivity). rewrite Hh. destruct (tc_blend c).
  - split; [intros _|reflexivity]. split; [exact L2|]. split; [apply B; reflexivity|]. split; [apply T; reflexivity|left; reflexivity].
  - rewrite R. split; [intro X; split; [exact L2|]; split; [apply B; reflexivity|]; split; [apply T; reflexivity|right; exact X]|]. intros (_ & _ & _ & [X|X]); [discriminate|exact X].
Qed.
(** ** Masks *)
Lemma list_eqb_iff a b : list_eqb a b = true <-> a = b.
Proof. unfold list_eqb. destruct (list_eq_dec Nat.eq_dec a b); split; congruence. Qed.
Lemma extract_inv s l m rest : extract_cube s l = Ok (m, rest) -> In m l /\ nc_name m = s /\ Permutation (m :: rest) l /\ forall c, In c rest -> nc_name c <> s.
Proof.
  unfold extract_cube. destruct (filter (fun c => String.eqb (nc_name c) s) l) as [|x [|]] eqn:F; try discriminate. intro H. apply Ok_inj in H. injection H as -> <-. assert (I0 : In m (filter (fun c => String.eqb (nc_name c) s) l)) by (rewrite F; left; reflexivity). apply filter_In in I0 as [I0 E]. apply String.eqb_eq in E. split; [exact I0|]. split; [exact E|]. split.
  - change (m :: filter (fun c => negb (String.eqb (nc_name c) s)) l) with ([m] ++ filter (fun c => negb (String.eqb (nc_name c) s)) l). rewrite <- F. clear. induction l as [|c l IH]; [reflexivity|]. cbn [filter]. destruct (String.eqb (nc_name c) s); cbn [negb app]; [constructor; exact IH|]. rewrite <- Permutation_middle. constructor. exact IH.
  - intros c C. apply filter_In in C as [_ C]. apply negb_true_iff, String.eqb_neq in C. exact C.
Qed.
Lemma meant_plain th names : ~ In "threshold"%string names -> meant th names = names.
Proof. induction names as [|s l IH]; intro N; [reflexivity|]. unfold meant. cbn [flat_map]. destruct (String.eqb_spec s "threshold") as [E|E]; [exfalso; apply N; left; exact E|]. cbn [app]. f_equal. apply IH. intro X. apply N. right. exact X. Qed.
Lemma named_list {A} (c : cube A) : ~ In None (map fst (cb_dims c)) -> map fst (cb_dims c) = map Some (dim_names c).
Proof. intro N. unfold dim_names. induction (cb_dims c) as [|[[s|] n] l IH]; [reflexivity| |exfalso; apply N; left; reflexivity]. cbn [map flat_map fst app]. f_equal. apply IH. intro X. apply N. right. exact X. Qed.
Lemma truth_bool (b : bool) : truth (Some (if b then 1 else 0)%Q) = b.
Proof. destruct b; reflexivity. Qed.
(** A cube and its mask: all dimensions have coordinates, coordinates of the cube have different names, none of them the word threshold; shared dimensions are of the same length. *)
Definition fits (c m : ncube) : Prop := all_named (nc_cube c) /\ all_named (nc_cube m) /\ NoDup (dim_names (nc_cube c) ++ nc_aux c) /\ ~ In "threshold"%string (dim_names (nc_cube c) ++ nc_aux c) /\
  forall s n k, In (Some s, n) (cb_dims (nc_cube c)) -> In (Some s, k) (cb_dims (nc_cube m)) -> n = k.
Definition same_dimensions (c m : ncube) : Prop := forall s, In s (dim_names (nc_cube c)) <-> In s (dim_names (nc_cube m)).
Lemma ordered_mask c m b : fits c m -> same_dimensions c m -> exists m', enforce_ordering (as_bool b (nc_cube m)) (nc_threshold m) (dim_names (nc_cube c) ++ nc_aux c) true = Ok m' /\ cb_dims m' = cb_dims (nc_cube c).
Proof.
  intros ((Nc & Ac) & (Nm & Am) & Nd & Nt & Sz) Sd. set (names := dim_names (nc_cube c) ++ nc_aux c) in *. assert (M : meant (nc_threshold m) names = names) by (apply meant_plain; exact Nt).
  assert (Fi : filter (fun s => existsb (dim_is s) (cb_dims (as_bool b (nc_cube m)))) names = dim_names (nc_cube c)).
  { cbn [as_bool cb_dims]. unfold names. rewrite filter_app. rewrite filter_all, filter_none; [apply app_nil_r| |].
    - intros s X. apply not_true_is_false. intro Y. apply existsb_dim in Y. apply dim_names_in, Sd in Y. clear -Nd X Y. unfold names in Nd. induction (dim_names (nc_cube c)) as [|t l IH]; [destruct Y|]. cbn [app] in Nd. inversion Nd as [|? ? N1 N2]; subst. destruct Y as [->|Y]; [apply N1, in_app_iff; right; exact X|exact (IH N2 Y)].
    - intros s X. apply existsb_dim, dim_names_in, Sd. exact X. }
  assert (Nf : NoDup (dim_names (nc_cube c))). { clear -Nd. unfold names in Nd. induction (dim_names (nc_cube c)) as [|t l IH]; [constructor|]. cbn [app] in Nd. inversion Nd as [|? ? N1 N2]; subst. constructor; [intro X; apply N1, in_app_iff; left; exact X|exact (IH N2)]. }
  destruct (C75_order (as_bool b (nc_cube m)) (nc_threshold m) names true) as (m' & E & L).
  - split; [exact Nm|exact Am].
  - rewrite M, Fi. exact Nf.
  - exists m'. split; [exact E|]. rewrite M, Fi in L. cbn [as_bool cb_dims] in L. rewrite filter_none, app_nil_r in L.
    + destruct (C75_values _ _ _ _ _ E) as [P _]. cbn [as_bool cb_dims] in P. assert (I0 : forall d, In d (cb_dims m') -> In d (cb_dims (nc_cube m))) by (intros d D; apply (Permutation_in (l := cb_dims m') _ P); exact D). rewrite <- (named_list (nc_cube c) Ac) in L. clear -L I0 Sz Ac. revert L I0 Sz Ac. generalize (cb_dims (nc_cube c)) as a. generalize (cb_dims m') as b. induction b as [|[s n] b IH]; intros [|[t k] a] L I0 Sz Ac; try discriminate; [reflexivity|]. cbn [map fst] in L. injection L as -> L.
      destruct t as [t|]; [|exfalso; apply Ac; left; reflexivity]. rewrite (Sz t k n (or_introl eq_refl) (I0 _ (or_introl eq_refl))). f_equal. apply IH; [exact L|intros d D; apply I0; right; exact D|intros s' x y X Y; apply (Sz s' x y); [right; exact X|exact Y]|intro X; apply Ac; right; exact X].
    + intros x X. apply negb_false_iff. rewrite (named_list (nc_cube m) Am) in X. apply in_map_iff in X as (s & <- & X). apply Sd in X. apply existsb_exists. exists s. split; [exact X|apply String.eqb_refl].
Qed.
Lemma mismatch_none {A B} (a : cube A) (b : cube B) : mismatch a b true = [] <-> forall s, In s (dim_names a) <-> In s (dim_names b).
Proof.
  split.
  - intros E s. destruct (in_dec string_dec s (dim_names a)) as [X|X], (in_dec string_dec s (dim_names b)) as [Y|Y]; try tauto; exfalso; (assert (Z : In s (mismatch a b true)); [apply C95_mismatch; tauto|rewrite E in Z; destruct Z]).
  - intro H. destruct (mismatch a b true) as [|s l] eqn:E; [reflexivity|]. exfalso. assert (Z : In s (mismatch a b true)) by (rewrite E; left; reflexivity). apply C95_mismatch in Z. specialize (H s). tauto.
Qed.
Lemma permuted_names {A} (a b : cube A) : Permutation (cb_dims a) (cb_dims b) -> forall s, In s (dim_names a) <-> In s (dim_names b).
Proof. intros P s. rewrite !dim_names_in. split; apply Permutation_in; apply Permutation_map; [exact P|symmetry; exact P]. Qed.
(** C95: of two cubes, one with the name of the mask, the other one is returned: at every position it is masked if it was or if the mask is not zero there (zero, if inverted), and unchanged otherwise. The order of the dimensions of the mask and of the two cubes does not matter. *)
Theorem C95_mask args name invert cubes : as_cubelist args = Ok cubes -> forall c m, Permutation cubes [c; m] -> nc_name m = name -> nc_name c <> name -> fits c m -> same_dimensions c m ->
  exists out after, apply_mask args name invert = Ok (out, after) /\ nc_name out = nc_name c /\ cb_dims (nc_cube out) = cb_dims (nc_cube c) /\
  (forall f, at_labels f (nc_cube out) = if xorb (truth (at_labels f (nc_cube m))) invert then None else at_labels f (nc_cube c)) /\
  nc_name after = name /\ Permutation (cb_dims (nc_cube after)) (cb_dims (nc_cube m)) /\ (forall f, truth (at_labels f (nc_cube after)) = xorb (truth (at_labels f (nc_cube m))) invert).
Proof.
  intros A c m P Nm Nc F Sd. unfold apply_mask. rewrite A. cbn [bind]. rewrite (Permutation_length P). cbn [length Nat.eqb negb].
  assert (X : extract_cube name cubes = Ok (m, [c])).
  { apply String.eqb_eq in Nm. apply String.eqb_neq in Nc. unfold extract_cube. apply Permutation_sym, Permutation_length_2_inv in P as [->| ->]; cbn [filter]; rewrite Nm, Nc; cbn [negb filter]; reflexivity. }
  rewrite X. cbn [bind]. destruct (ordered_mask c m invert F Sd) as (m' & E & D). rewrite E. cbn [bind]. destruct (C75_values _ _ _ _ _ E) as [Pm V].
  assert (Mm : mismatch (nc_cube c) m' true = []). { apply mismatch_none. intro s. rewrite !dim_names_in, D. reflexivity. }
  rewrite Mm. unfold masked_array. assert (Sh : list_eqb (shape_of m') (shape_of (nc_cube c)) = true) by (apply list_eqb_iff; unfold shape_of; rewrite D; reflexivity). rewrite Sh. cbn [bind]. eexists. eexists. split; [reflexivity|]. cbn [with_cube nc_name nc_cube cb_dims].
  assert (T : forall f, truth (at_labels f m') = xorb (truth (at_labels f (nc_cube m))) invert). { intro f. rewrite V. unfold at_labels at 1. cbn [as_bool cb_data cb_dims]. rewrite truth_bool. reflexivity. }
  split; [reflexivity|]. split; [reflexivity|]. split; [|split; [exact Nm|split; [exact Pm|exact T]]]. intro f. rewrite <- T. unfold at_labels. cbn [cb_data cb_dims]. rewrite D. reflexivity.
Qed.
(** C95: anything but two cubes is a ValueError; not exactly one cube of the name of the mask a ConstraintMismatchError; dimensions on one of the two only a ValueError. *)
Theorem C95_mask_refused args name invert cubes : as_cubelist args = Ok cubes -> (length cubes <> 2 -> apply_mask args name invert = Err ValueError) /\
  (length cubes = 2 -> ((forall c, In c cubes -> nc_name c <> name) \/ (forall c, In c cubes -> nc_name c = name)) -> apply_mask args name invert = Err ConstraintMismatchError) /\
  (forall c m, Permutation cubes [c; m] -> nc_name m = name -> nc_name c <> name -> ~ same_dimensions c m -> apply_mask args name invert = Err ValueError).
Proof.
  intro A. unfold apply_mask. rewrite A. cbn [bind]. split; [|split].
  - intro L. apply Nat.eqb_neq in L. rewrite L. reflexivity.
  - intros L H. rewrite L. cbn [Nat.eqb negb]. destruct cubes as [|a [|b [|]]]; try discriminate. unfold extract_cube. destruct H as [H|H]; pose proof (H a (or_introl eq_refl)) as Ha; pose proof (H b (or_intror (or_introl eq_refl))) as Hb.
    + apply String.eqb_neq in Ha, Hb. cbn [filter]. rewrite Ha, Hb. reflexivity.
    + apply String.eqb_eq in Ha, Hb. cbn [filter]. rewrite Ha, Hb. reflexivity.
  - intros c m P Nm Nc Sd. rewrite (Permutation_length P). cbn [length Nat.eqb negb]. assert (X : extract_cube name cubes = Ok (m, [c])).
    { apply String.eqb_eq in Nm. apply String.eqb_neq in Nc. unfold extract_cube. apply Permutation_sym, Permutation_length_2_inv in P as [->| ->]; cbn [filter]; rewrite Nm, Nc; cbn [negb filter]; reflexivity. }
    rewrite X. cbn [bind]. destruct (enforce_ordering _ _ _ _) as [m'|e] eqn:E; cbn [bind]; [|apply C75_error in E; subst; reflexivity]. destruct (mismatch (nc_cube c) m' true) as [|s l] eqn:Mm; [|reflexivity]. exfalso. apply Sd. intro s. apply C75_values in E as [Pm _]. cbn [as_bool cb_dims] in Pm.
    rewrite (proj1 (mismatch_none _ _) Mm s). exact (permuted_names m' (as_bool invert (nc_cube m)) Pm s).
Qed.
(** C95: a mask that is accepted has as many values as the cube, or one. *)
Theorem C95_mask_size args name invert out after : apply_mask args name invert = Ok (out, after) -> let count := fun c : ncube => fold_right Nat.mul 1 (map snd (cb_dims (nc_cube c))) in count after = count out \/ count after = 1.
Proof.
  unfold apply_mask. destruct (as_cubelist args) as [cubes|]; [|discriminate]. cbn [bind]. destruct (negb _); [discriminate|]. destruct (extract_cube name cubes) as [[m rest]|]; [|discriminate]. cbn [bind]. destruct rest as [|c rest]; [discriminate|]. destruct (enforce_ordering _ _ _ _) as [m'|]; [|discriminate]. cbn [bind]. destruct (mismatch _ _ _); [|discriminate].
  destruct (masked_array (nc_cube c) m') as [d|] eqn:E; [|discriminate]. cbn [bind]. intro H. apply Ok_inj in H. apply pair_equal_spec in H as [<- <-]. cbn [with_cube nc_cube]. assert (Sz : forall l, size l = fold_right Nat.mul 1 l) by (induction l as [|n l IH]; [reflexivity|]; cbn; now rewrite IH).
  unfold masked_array in E. destruct (list_eqb (shape_of m') (shape_of (nc_cube c))) eqn:L.
  - apply list_eqb_iff in L. injection E as <-. cbn [cb_dims]. left. unfold shape_of in L. now rewrite L.
  - destruct (Nat.eqb_spec (size (shape_of m')) 1) as [S1|S1]; [right; rewrite <- Sz; exact S1|]. destruct (Nat.eqb_spec (size (shape_of m')) (size (shape_of (nc_cube c)))) as [S2|S2]; [|discriminate]. injection E as <-. cbn [cb_dims]. left. rewrite <- !Sz. exact S2.
Qed.
(** C95: "this error is required to stop the mask from being broadcasted": refuted. A mask of the same dimensions but other lengths is accepted and reshaped if it has as many values, and spread if it has one. *)
Definition small (n : string) (dims : list (option string * nat)) (f : list nat -> Q) : ncube := {| nc_name := n; nc_aux := []; nc_threshold := None; nc_cube := {| cb_dims := dims; cb_data := fun i => Some (f i) |} |}.
Definition diagonal (i : list nat) : Q := match i with [a; b] => if a =? b then 1 else 0 | _ => 0 end.
Definition field23 : ncube := small "field" [(Some "y", 2); (Some "x", 3)]%string (fun _ => 5%Q).
Theorem C95_mask_shape_refuted : (exists out after, apply_mask [Item (Some field23); Item (Some (small "mask" [(Some "y", 3); (Some "x", 2)]%string diagonal))] "mask" false = Ok (out, after) /\ map (fun i => cb_data (nc_cube out) i) [[0; 0]; [0; 1]; [0; 2]; [1; 0]; [1; 1]; [1; 2]] = [None; Some 5; Some 5; None; Some 5; Some 5]%Q) /\
  (exists out after, apply_mask [Item (Some field23); Item (Some (small "mask" [(Some "y", 1); (Some "x", 1)]%string diagonal))] "mask" false = Ok (out, after) /\ map (fun i => cb_data (nc_cube out) i) [[0; 0]; [0; 1]; [0; 2]; [1; 0]; [1; 1]; [1; 2]] = [None; None; None; None; None; None]).
Proof. split; (eexists; eexists; split; [vm_compute; reflexivity|vm_compute; reflexivity]). Qed.
(** C95: the mask cube is changed in place: applying the same mask once more, inverted, to another cube of the same kind gives the opposite mask. *)
Theorem C95_mask_again_refuted : exists out after out2 after2, let m := small "mask" [(Some "y", 2); (Some "x", 3)]%string diagonal in apply_mask [Item (Some field23); Item (Some m)] "mask" true = Ok (out, after) /\ apply_mask [Item (Some field23); Item (Some after)] "mask" true = Ok (out2, after2) /\
  cb_data (nc_cube out) [0; 0] = Some 5%Q /\ cb_data (nc_cube out2) [0; 0] = None /\ cb_data (nc_cube out) [0; 1] = None /\ cb_data (nc_cube out2) [0; 1] = Some 5%Q.
Proof. eexists. eexists. eexists. eexists. split; [vm_compute; reflexivity|]. split; [vm_compute; reflexivity|]. repeat split. Qed.
Example C95_case : (fits field23 (small "mask" [(Some "x", 3); (Some "y", 2)]%string diagonal) /\ same_dimensions field23 (small "mask" [(Some "x", 3); (Some "y", 2)]%string diagonal)) /\
  (exists out after, apply_mask [Nested [Item (Some (small "mask" [(Some "x", 3); (Some "y", 2)]%string diagonal)); Nested []]; Item (Some field23)] "mask" false = Ok (out, after) /\ map (fun i => cb_data (nc_cube out) i) [[0; 0]; [0; 1]; [0; 2]; [1; 0]; [1; 1]; [1; 2]] = [None; Some 5; Some 5; Some 5; None; Some 5]%Q) /\
  apply_mask [Item (Some field23)] "mask" false = Err ValueError /\ apply_mask [Item (Some field23); Item None] "mask" false = Err TypeError /\
  (exists out, check_coordinates ["y"; "x"; "time"] (plain_cube ["x"; "y"]) [("height", None); ("time", None)] [] = Ok out /\ cb_dims out = [(Some "y", 2); (Some "x", 2); (Some "time", 1)])%string.
Proof.
  split; [|split; [|split; [reflexivity|split; [reflexivity|]]]].
  - split; [|intro s; cbn; tauto]. assert (D : forall x y : string, x <> y -> NoDup [Some x; Some y] /\ ~ In None [Some x; Some y]). { intros x y N. split; [repeat constructor; cbn; intuition congruence|cbn; intuition congruence]. }
    split; [apply D; discriminate|]. split; [apply D; discriminate|]. split; [repeat constructor; cbn; intuition congruence|]. split; [cbn; intuition congruence|]. intros s n k. cbn. intuition congruence.
  - eexists. eexists. split; [vm_compute; reflexivity|vm_compute; reflexivity].
  - eexists. split; [vm_compute; reflexivity|reflexivity].
Qed.

Print Assumptions C95_cubelist.
Print Assumptions C95_ordered.
Print Assumptions C95_exceptions_stay.
Print Assumptions C95_auxiliary_exceptions_stay.
Print Assumptions C95_order_possible.
Print Assumptions C95_exceptions_order_refuted.
Print Assumptions C95_missing_error_refuted.
Print Assumptions C95_mismatch.
Print Assumptions C95_times.
Print Assumptions C95_mask.
Print Assumptions C95_mask_refused.
Print Assumptions C95_mask_size.
Print Assumptions C95_mask_shape_refuted.
Print Assumptions C95_mask_again_refuted.
