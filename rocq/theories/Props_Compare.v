(** C110: comparison of files. *)
From Coq Require Import String.
From Verif Require Import Base Model_Compare Spec_Compare.
Local Open Scope string_scope.

Lemma mem_iff k l : mem k l = true <-> In k l.
Proof. unfold mem. rewrite existsb_exists. split; [intros (x & I' & E); apply String.eqb_eq in E; now subst|intro H; exists k; split; [exact H|apply String.eqb_refl]]. Qed.
Lemma mem_false k l : mem k l = false <-> ~ In k l.
Proof. rewrite <- mem_iff. destruct (mem k l); split; congruence. Qed.
Lemma kept_iff k skip l : In k (kept skip l) <-> In k l /\ ~ In k skip.
Proof. unfold kept. rewrite filter_In, negb_true_iff, mem_false. reflexivity. Qed.
Lemma same_set_iff a b : same_set a b = true <-> forall k, In k a <-> In k b.
Proof.
  unfold same_set. rewrite andb_true_iff, !forallb_forall. split.
  - intros [A B] k. split; intro H; [apply A in H|apply B in H]; now apply mem_iff.
  - intro H. split; intros k K; apply mem_iff; now apply H.
Qed.
Lemma lookup_in {A} k v (l : list (string * A)) : dictionary l -> (lookup k l = Some v <-> In (k, v) l).
Proof.
  unfold lookup, dictionary. induction l as [|[k0 v0] l IH]; cbn [map fst]; intro D; [split; [discriminate|intros []]|]. inversion_clear D. cbn [find fst]. destruct (String.eqb_spec k0 k) as [->|N]; cbn [option_map snd].
  - split; [intros [= ->]; now left|]. intros [E|I']; [congruence|]. apply (in_map fst) in I'. contradiction.
  - rewrite IH by assumption. split; [now right|]. intros [E|I']; [congruence|exact I'].
Qed.
Lemma lookup_none {A} k (l : list (string * A)) : lookup k l = None <-> forall v, ~ In (k, v) l.
Proof.
  unfold lookup. induction l as [|[k0 v0] l IH]; cbn [find fst]; [split; [intros _ v []|reflexivity]|]. destruct (String.eqb_spec k0 k) as [->|N]; cbn [option_map].
  - split; [discriminate|]. intro H. elim (H v0). now left.
  - rewrite IH. split; [intros H v [E|I']; [congruence|exact (H v I')]|intros H v I'; apply (H v); now right].
Qed.
Lemma key_iff {A} k (l : list (string * A)) : In k (map fst l) <-> exists v, In (k, v) l.
Proof. rewrite in_map_iff. split; [intros ([k0 v] & <- & H); now exists v|intros [v H]; exists (k, v); auto]. Qed.
Lemma flat_map_nil {A B} (f : A -> list B) l : flat_map f l = [] <-> forall x, In x l -> f x = [].
Proof. induction l as [|a l IH]; cbn; [split; [intros _ ? []|reflexivity]|]. split; [intros H x [<-|I']; apply app_eq_nil in H as [H1 H2]; [exact H1|now apply IH]|]. intro H. rewrite (H a) by now left. apply IH. auto. Qed.
Lemma if_nil {A} (b : bool) (m : A) : (if b then [] else [m]) = [] <-> b = true.
Proof. destruct b; split; congruence. Qed.
Lemma app_nil_iff {A} (l m : list A) : (l ++ m = [] <-> l = [] /\ m = [])%list.
Proof. split; [apply app_eq_nil|now intros [-> ->]]. Qed.
(** The pattern of every part of the comparison. *)
Lemma section_iff {A B} (F : string * A -> B -> list message) skip a d (m : message) : dictionary d ->
  ((if same_set (kept skip (map fst a)) (kept skip (map fst d)) then [] else [m]) = [] /\ flat_map (fun e => if mem (fst e) skip then [] else match lookup (fst e) d with None => [] | Some y => F e y end) a = []) <->
  agree_on (fun k v w => F (k, v) w = []) skip a d.
Proof.
  intro D. rewrite if_nil, same_set_iff, flat_map_nil. unfold agree_on. split.
  - intros [S1 V] k N. split.
    + specialize (S1 k). rewrite !kept_iff, !key_iff in S1. tauto.
    + intros v w I1 I2. specialize (V _ I1). cbn [fst] in V. apply mem_false in N. rewrite N in V. apply (lookup_in k w d D) in I2. rewrite I2 in V. exact V.
  - intro H. split.
    + intro k. rewrite !kept_iff, !key_iff. split; intros [X N]; split; auto; now apply (H k N).
    + intros [k v] I1. cbn [fst]. destruct (mem k skip) eqn:N; [reflexivity|]. apply mem_false in N. destruct (lookup k d) as [w|] eqn:L; [|reflexivity]. apply (lookup_in k w d D) in L. exact (proj2 (H k N) v w I1 L).
Qed.
Lemma agree_on_iff {A B} (R1 R2 : string -> A -> B -> Prop) skip a d : (forall k v w, ~ In k skip -> In (k, v) a -> In (k, w) d -> (R1 k v w <-> R2 k v w)) -> agree_on R1 skip a d <-> agree_on R2 skip a d.
Proof. intro H. unfold agree_on. split; intros G k N; destruct (G k N) as [X Y]; (split; [exact X|]); intros v w I1 I2; apply (H k v w N I1 I2); auto. Qed.
Lemma all2_iff {A B} (f : A -> B -> bool) (R : A -> B -> Prop) l : (forall a b, f a b = true <-> R a b) -> forall m, all2 f l m = true <-> Forall2 R l m.
Proof.
  intro H. induction l as [|a l IH]; intros [|b m]; cbn; try (split; [discriminate|inversion 1]); [split; [constructor|reflexivity]|]. rewrite andb_true_iff, H, IH. split; [intros []; now constructor|inversion 1; auto].
Qed.
Lemma number_iff a b : same_number a b = true <-> equal_numbers a b.
Proof. destruct a, b; cbn; try (split; [discriminate|inversion 1]); try (split; [constructor|reflexivity]). rewrite Qeq_bool_iff. split; [now constructor|now inversion 1]. Qed.
Lemma forall2_eq {A} (l m : list A) : Forall2 eq l m <-> l = m.
Proof. split; [induction 1; congruence|intros <-; induction l; now constructor]. Qed.
Lemma attr_iff a d : same_type a d = true /\ same_value a d = true <-> equal_attributes a d.
Proof.
  destruct a, d; cbn [same_type same_value]; try (split; [intros []; discriminate|inversion 1]).
  - rewrite String.eqb_eq. split; [intros [_ <-]; constructor|inversion 1; auto].
  - rewrite String.eqb_eq, number_iff. split; [intros [<- ?]; now constructor|inversion 1; auto].
  - rewrite (all2_iff _ _ _ number_iff). split; [intros [_ ?]; now constructor|inversion 1; auto].
  - rewrite (all2_iff _ eq _ (String.eqb_eq)), forall2_eq. split; [intros [_ <-]; constructor|inversion 1; auto].
Qed.
Lemma attributes_iff name ig a d : dictionary d -> compare_attributes name ig a d = [] <-> agree_on (fun _ => equal_attributes) ig a d.
Proof.
  intro D. unfold compare_attributes. rewrite app_nil_iff.
  rewrite (section_iff (fun (e : string * attribute) (y : attribute) => ((if same_type (snd e) y then [] else [MAttrType name (fst e)]) ++ (if same_value (snd e) y then [] else [MAttrValue name (fst e)]))%list) ig a d (MAttributes name) D).
  apply agree_on_iff. intros k v w _ _ _. cbn [fst snd]. rewrite app_nil_iff, !if_nil. apply attr_iff.
Qed.
Lemma dims_iff name ex a d : dictionary d -> compare_dims name ex a d = [] <-> agree_on (fun _ n m => n = m) ex a d.
Proof.
  intro D. unfold compare_dims. rewrite app_nil_iff.
  rewrite (section_iff (fun (e : string * nat) (n : nat) => if Nat.eqb (snd e) n then [] else [MDimSize name (fst e)]) ex a d (MDims name) D).
  apply agree_on_iff. intros k v w _ _ _. cbn [fst snd]. rewrite if_nil. apply Nat.eqb_eq.
Qed.
Lemma close_iff rtol atol a d : close rtol atol a d = true <-> near rtol atol a d.
Proof. destruct a, d; cbn; try (split; [discriminate|inversion 1]); try (split; [constructor|reflexivity]). rewrite Qle_bool_iff. split; [now constructor|now inversion 1]. Qed.
Lemma arrays_iff {A} (f : A -> A -> bool) (R : A -> A -> Prop) sa sd a d : (forall x y, f x y = true <-> R x y) -> arrays_agree f sa sd a d = true <-> arrays R sa sd a d.
Proof.
  intro H. unfold arrays_agree. destruct sa as [|n sa].
  - destruct a as [|x [|? ?]]; [split; [discriminate|inversion 1; congruence]| |split; [discriminate|inversion 1; congruence]]. rewrite forallb_forall, <- Forall_forall. split.
    + intro F. apply scalar_left. eapply Forall_impl; [|exact F]. intros y Y. now apply H.
    + inversion 1; subst; try congruence. eapply Forall_impl; [|eassumption]. intros y Y. now apply H.
  - destruct sd as [|m sd].
    + destruct d as [|y [|? ?]]; [split; [discriminate|inversion 1; congruence]| |split; [discriminate|inversion 1; congruence]]. rewrite forallb_forall, <- Forall_forall. split.
      * intro F. apply scalar_right; [discriminate|]. eapply Forall_impl; [|exact F]. intros z Z. now apply H.
      * inversion 1; subst; try congruence. eapply Forall_impl; [|eassumption]. intros z Z. now apply H.
    + rewrite andb_true_iff, (all2_iff _ eq _ Nat.eqb_eq), forall2_eq, (all2_iff _ R _ H). split; [intros [E F]; rewrite <- E; apply same_shape; [discriminate|exact F]|]. inversion 1; subst; auto.
Qed.
Lemma data_iff name rtol atol a d : compare_data name rtol atol a d = [] <-> va_dtype a = va_dtype d /\ agreeing_data rtol atol a d.
Proof.
  unfold compare_data. rewrite app_nil_iff, !if_nil, String.eqb_eq. assert (E : (match va_data a, va_data d with Numbers l, Numbers m => arrays_agree (close rtol atol) (va_shape a) (va_shape d) l m | Others l, Others m => arrays_agree String.eqb (va_shape a) (va_shape d) l m | _, _ => false end = true) <-> agreeing_data rtol atol a d); [|now rewrite E].
  destruct (va_data a) as [l|l] eqn:Ea, (va_data d) as [m|m] eqn:Ed.
  - rewrite (arrays_iff _ (near rtol atol)) by apply close_iff. split; [now apply agree_numbers|]. inversion 1; congruence.
  - split; [discriminate|inversion 1; congruence].
  - split; [discriminate|inversion 1; congruence].
  - rewrite (arrays_iff _ eq) by apply String.eqb_eq. split; [now apply agree_others|]. inversion 1; congruence.
Qed.
Lemma checked_iff ex a d k : In k (filter (fun k => mem k (kept ex (map fst d))) (kept ex (map fst a))) <-> compared ex a d k.
Proof. rewrite filter_In, mem_iff, !kept_iff, !key_iff. unfold compared. tauto. Qed.
Lemma coord_iff ex a d k : In k (coord_vars ex a d) <-> coordinate ex a d k.
Proof.
  unfold coord_vars. cbv zeta. rewrite filter_In, checked_iff, existsb_exists. unfold coordinate. split.
  - intros [C ([j w] & I' & E)]. split; [exact C|]. apply andb_true_iff in E as [E1 E2]. cbn [fst snd] in *. apply mem_iff in E1, E2. apply checked_iff in E1. exists j, w. auto.
  - intros [C (j & w & C2 & I' & E)]. split; [exact C|]. exists (j, w). split; [exact I'|]. cbn [fst snd]. apply andb_true_iff. rewrite !mem_iff, checked_iff. auto.
Qed.
Lemma vars_iff name rtol atol ex ig a d : dictionary d -> (forall k x, In (k, x) d -> dictionary (va_attrs x)) ->
  compare_vars name rtol atol ex ig a d = [] <-> agree_on (fun k v w => (coordinate ex a d k -> agreeing_variables 0 0 ig v w) /\ (~ coordinate ex a d k -> agreeing_variables rtol atol ig v w)) ex a d.
Proof.
  intros D G. unfold compare_vars. rewrite app_nil_iff.
  rewrite (section_iff (fun (e : string * variable) (y : variable) => (let path := String.append name (String.append "/" (fst e)) in compare_attributes path ig (va_attrs (snd e)) (va_attrs y) ++
     (if mem (fst e) (coord_vars ex a d) then compare_data path 0 0 (snd e) y else compare_data path rtol atol (snd e) y))%list) ex a d (MVars name) D).
  apply agree_on_iff. intros k v w _ _ W. cbn [fst snd]. cbv zeta. rewrite app_nil_iff, attributes_iff by (eapply G; exact W). unfold agreeing_variables. destruct (mem k (coord_vars ex a d)) eqn:M.
  - apply mem_iff, coord_iff in M. rewrite data_iff. tauto.
  - apply mem_false in M. rewrite coord_iff in M. rewrite data_iff. tauto.
Qed.
Lemma dataset_ind' (P : dataset -> Prop) : (forall a d v g, (forall k x, In (k, x) g -> P x) -> P (Group a d v g)) -> forall x, P x.
Proof.
  intro H. fix F 1. intros [a d v g]. apply H. induction g as [|[k0 x0] g IH]; [intros k x []|]. intros k x [E|I']; [injection E as _ <-; apply F|exact (IH k x I')].
Qed.
(** No message exactly when the files agree. *)
Theorem C110_datasets rtol atol ex ig a : forall d name, good d -> compare_datasets name rtol atol ex ig a d = [] <-> agrees rtol atol ex ig a d.
Proof.
  induction a as [aa ad av ag IH] using dataset_ind'. intros [da dd dv dg] name Gd. inversion Gd as [? ? ? ? G1 G2 G3 G4 G5 G6]; subst. cbn [compare_datasets]. rewrite !app_nil_iff.
  rewrite attributes_iff, dims_iff, vars_iff by (auto; intros k x X; apply (G5 k x X)).
  assert (S1 : ((if same_set (map fst ag) (map fst dg) then [] else [MGroups name]) = [] /\ flat_map (fun e => match lookup (fst e) dg with None => [] | Some y => (compare_attributes (fst e) ig (attrs_of (snd e)) (attrs_of y) ++ compare_datasets (fst e) rtol atol ex ig (snd e) y)%list end) ag = []) <-> agree_on (fun _ g h => agrees rtol atol ex ig g h) [] ag dg).
  { pose proof (section_iff (fun (e : string * dataset) (y : dataset) => (compare_attributes (fst e) ig (attrs_of (snd e)) (attrs_of y) ++ compare_datasets (fst e) rtol atol ex ig (snd e) y)%list) [] ag dg (MGroups name) G4) as S0.
    assert (K : forall l, kept [] l = l) by (intro l; unfold kept; induction l as [|x0 l IHl]; [reflexivity|]; cbn [filter]; change (mem x0 []) with false; cbn [negb]; f_equal; exact IHl). rewrite !K in S0. cbn [mem existsb] in S0. rewrite S0. apply agree_on_iff. intros k v w _ I1 I2. cbn [fst snd]. rewrite app_nil_iff. rewrite (IH k v I1 w k) by (eapply G6; exact I2).
    assert (X : agrees rtol atol ex ig v w -> compare_attributes k ig (attrs_of v) (attrs_of w) = []). { intro H. inversion H; subst. cbn [attrs_of]. apply attributes_iff; [|assumption]. specialize (G6 k _ I2). now inversion G6. }
    tauto. }
  split.
  - intros (A & B & C & E & F). apply agrees_group; auto. now apply S1.
  - intro H. inversion H; subst. tauto.
Qed.
Theorem C110_agree rtol atol ex ig a d : good d -> (compare_netcdfs rtol atol ex ig (Some a) (Some d) = [] <-> agrees rtol atol ex ig a d) /\
  (compare_raising rtol atol ex ig (Some a) (Some d) = Ok tt <-> agrees rtol atol ex ig a d) /\ (compare_raising rtol atol ex ig (Some a) (Some d) = Err ValueError <-> ~ agrees rtol atol ex ig a d).
Proof.
  intro G. pose proof (C110_datasets rtol atol ex ig a d "" G) as H. unfold compare_raising. cbn [compare_netcdfs]. split; [exact H|]. destruct (compare_datasets "" rtol atol ex ig a d) as [|x l]; split; split; intro X; try reflexivity; try discriminate.
  - now apply H.
  - exfalso. apply X. now apply H.
  - apply H in X. discriminate.
  - intro Y. apply H in Y. discriminate.
Qed.
(** A file that cannot be opened is a difference. *)
Theorem C110_open rtol atol ex ig a d : a = None \/ d = None -> compare_netcdfs rtol atol ex ig a d <> [] /\ compare_raising rtol atol ex ig a d = Err ValueError.
Proof. unfold compare_raising. intros [->| ->]; [|destruct a]; (split; [discriminate|reflexivity]). Qed.

(** ** Consequences *)
Lemma near_exact x y : near 0 0 x y <-> (equal_numbers x y \/ x = NaN /\ y = NaN).
Proof.
  split.
  - inversion 1 as [p q L| | |]; subst; auto; left; constructor. assert (Z : (Qabs (p - q) <= 0)%Q) by (eapply Qle_trans; [exact L|]; rewrite Qmult_0_l; apply Qle_refl). apply Qabs_Qle_condition in Z. lra.
  - intros [H|[-> ->]]; [|constructor]. inversion H as [p q E| |]; subst; constructor. rewrite E. assert (Z : (q - q == 0)%Q) by ring. rewrite Z. cbn. rewrite Qmult_0_l. apply Qle_refl.
Qed.
(** Coordinate variables of agreeing files are equal, whatever the tolerances. *)
Theorem C110_coordinates rtol atol ex ig aa ad av ag da dd dv dg : agrees rtol atol ex ig (Group aa ad av ag) (Group da dd dv dg) ->
  forall k v w l m, coordinate ex av dv k -> In (k, v) av -> In (k, w) dv -> va_data v = Numbers l -> va_data w = Numbers m -> va_shape v = va_shape w -> va_shape v <> [] ->
  Forall2 (fun x y => equal_numbers x y \/ x = NaN /\ y = NaN) l m.
Proof.
  intros H k v w l m C I1 I2 E1 E2 S1 S2. inversion H as [? ? ? ? ? ? ? ? _ _ V _]; subst. destruct (proj2 (V k (proj1 (proj1 C))) v w I1 I2) as [X _]. destruct (X C) as (_ & _ & Y). inversion Y as [? ? l' m' Q1 Q2 Ar|? ? l' m' Q1 Q2 Ar]; subst; [|congruence]. assert (l' = l) by congruence. assert (m' = m) by congruence. subst.
  rewrite S1 in S2. inversion Ar as [s l0 m0 N F|t x m0 F|s l0 y N F]; subst; try congruence. clear -F. induction F as [|a b l m N F IH]; constructor; [now apply near_exact|exact IH].
Qed.
Lemma near_weaker r r' t t' x y : (r <= r')%Q -> (t <= t')%Q -> near r t x y -> near r' t' x y.
Proof. intros R T. inversion 1 as [p q L| | |]; subst; constructor. pose proof (Qabs_nonneg q). nra. Qed.
Lemma arrays_impl {A} (R1 R2 : A -> A -> Prop) sa sd a d : (forall x y, R1 x y -> R2 x y) -> arrays R1 sa sd a d -> arrays R2 sa sd a d.
Proof.
  intros H X. inversion X as [s l m N F|t x m F|s l y N F]; subst; [apply same_shape|apply scalar_left|apply scalar_right]; auto; [clear -F H; induction F; constructor; auto|eapply Forall_impl; [|exact F]; intros z Z; now apply H|eapply Forall_impl; [|exact F]; intros z Z; now apply H].
Qed.
Lemma data_weaker r r' t t' v w : (r <= r')%Q -> (t <= t')%Q -> agreeing_data r t v w -> agreeing_data r' t' v w.
Proof. intros R T. inversion 1 as [? ? l m E1 E2 Ar|? ? l m E1 E2 Ar]; subst; [eapply agree_numbers|eapply agree_others]; eauto. eapply arrays_impl; [|exact Ar]. intros. eapply near_weaker; eauto. Qed.
(** Files that agree agree with wider tolerances. *)
Theorem C110_wider r r' t t' ex ig a : (r <= r')%Q -> (t <= t')%Q -> forall d, agrees r t ex ig a d -> agrees r' t' ex ig a d.
Proof.
  intros R T. induction a as [aa ad av ag IH] using dataset_ind'. intros d H. inversion H as [? ? ? ? da dd dv dg A1 A2 A3 A4]; subst. apply agrees_group; auto.
  - intros k N. destruct (A3 k N) as [X Y]. split; [exact X|]. intros v w I1 I2. destruct (Y v w I1 I2) as [Y1 Y2]. split; [exact Y1|]. intro C. destruct (Y2 C) as (Z1 & Z2 & Z3). repeat split; try assumption; try apply Z2; auto. eapply data_weaker; eauto.
  - intros k N. destruct (A4 k N) as [X Y]. split; [exact X|]. intros v w I1 I2. exact (IH k v I1 w (Y v w I1 I2)).
Qed.
(** A file agrees with itself, unless an attribute is NaN. *)
Lemma unique {A} k (v w : A) l : dictionary l -> In (k, v) l -> In (k, w) l -> v = w.
Proof. intros D I1 I2. apply (lookup_in k v l D) in I1. apply (lookup_in k w l D) in I2. congruence. Qed.
Lemma attr_refl a : number_attr a -> equal_attributes a a.
Proof.
  assert (N : forall x, x <> NaN -> equal_numbers x x) by (intros [q| | |] H; try constructor; [reflexivity|congruence]).
  destruct a as [s|t x|t l|l]; cbn; intro H; constructor; auto. induction l as [|x l IH]; constructor; [apply N; intros ->; apply H; now left|apply IH; intro; apply H; now right].
Qed.
Lemma attrs_refl ig l : dictionary l -> (forall k x, In (k, x) l -> number_attr x) -> agree_on (fun _ => equal_attributes) ig l l.
Proof. intros D H k _. split; [reflexivity|]. intros v w I1 I2. rewrite <- (unique k v w l D I1 I2). apply attr_refl. eauto. Qed.
Lemma near_refl r t x : (0 <= r)%Q -> (0 <= t)%Q -> near r t x x.
Proof. intros R T. destruct x as [q| | |]; constructor. assert (Z : (q - q == 0)%Q) by ring. rewrite Z. cbn. pose proof (Qabs_nonneg q). nra. Qed.
Lemma arrays_refl {A} (R : A -> A -> Prop) s l : (forall x, R x x) -> (s = [] -> length l = 1%nat) -> arrays R s s l l.
Proof.
  intros H L. destruct s as [|n s].
  - specialize (L eq_refl). destruct l as [|x [|? ?]]; try discriminate. apply scalar_left. repeat constructor. apply H.
  - apply same_shape; [discriminate|]. clear L. induction l; constructor; auto.
Qed.
Theorem C110_self r t ex ig a : (0 <= r)%Q -> (0 <= t)%Q -> good a -> without_nan_attributes a -> agrees r t ex ig a a.
Proof.
  intros R T. induction a as [aa ad av ag IH] using dataset_ind'. intros G N. inversion G as [? ? ? ? G1 G2 G3 G4 G5 G6]; subst. inversion N as [? ? ? ? N1 N2 N3]; subst.
  assert (V : forall r t k v, (0 <= r)%Q -> (0 <= t)%Q -> In (k, v) av -> agreeing_variables r t ig v v).
  { intros r0 t0 k v R0 T0 I'. destruct (G5 k v I') as [D S1]. split; [reflexivity|]. split; [apply attrs_refl; [exact D|intros j y J; exact (N2 k v I' j y J)]|]. destruct (va_data v) as [l|l] eqn:E; [apply (agree_numbers _ _ _ _ l l)|apply (agree_others _ _ _ _ l l)]; auto; apply arrays_refl; auto. intro x. now apply near_refl. }
  apply agrees_group.
  - now apply attrs_refl.
  - intros k _. split; [reflexivity|]. intros v w I1 I2. exact (unique k v w ad G2 I1 I2).
  - intros k _. split; [reflexivity|]. intros v w I1 I2. rewrite <- (unique k v w av G3 I1 I2). split; intros _; apply (V _ _ k); auto; lra.
  - intros k _. split; [reflexivity|]. intros v w I1 I2. rewrite <- (unique k v w ag G4 I1 I2). apply (IH k v I1); eauto.
Qed.
Ltac dct := unfold dictionary; cbn [map fst va_attrs]; repeat (first [apply NoDup_nil|apply NoDup_cons; [cbn; intuition congruence|]]).
Theorem C110_self_refuted : ~ (forall r t ex ig a, (0 <= r)%Q -> (0 <= t)%Q -> good a -> compare_netcdfs r t ex ig (Some a) (Some a) = []).
Proof.
  intro H. pose (v := {| va_dtype := "float32"; va_dims := []; va_shape := []; va_data := Numbers [Finite 1]; va_attrs := [("_FillValue", ANumber "float32" NaN)] |}).
  specialize (H (1 # 100) (1 # 100) [] [] (Group [] [] [("air_temperature", v)] []) ltac:(discriminate) ltac:(discriminate)). assert (G : good (Group [] [] [("air_temperature", v)] [])).
  { apply good_group; try dct; [|intros k x []]. intros k x [E|[]]. injection E as <- <-. split; [dct|reflexivity]. }
  specialize (H G). vm_compute in H. discriminate.
Qed.
(** With no tolerance it does not matter which file is which; with one it does. *)
Lemma equal_sym x y : equal_numbers x y -> equal_numbers y x.
Proof. inversion 1; subst; constructor. now symmetry. Qed.
Lemma attributes_sym a d : equal_attributes a d -> equal_attributes d a.
Proof. inversion 1 as [s|t x y E|t u l m E|l]; subst; constructor; [now apply equal_sym|]. clear -E. induction E; constructor; auto. now apply equal_sym. Qed.
Lemma agree_on_sym {A B} (R : string -> A -> B -> Prop) (R' : string -> B -> A -> Prop) skip a d : (forall k v w, In (k, v) a -> In (k, w) d -> R k v w -> R' k w v) -> agree_on R skip a d -> agree_on R' skip d a.
Proof. intros H G k N. destruct (G k N) as [X Y]. split; [now symmetry|]. intros w v I2 I1. auto. Qed.
Lemma arrays_sym {A} (R R' : A -> A -> Prop) sa sd a d : (forall x y, R x y -> R' y x) -> (sd = [] -> length d = 1%nat) -> arrays R sa sd a d -> arrays R' sd sa d a.
Proof.
  intros H L X. inversion X as [s l m N F|t x m F|s l y N F]; subst.
  - apply same_shape; [exact N|]. clear -F H. induction F; constructor; auto.
  - destruct sd as [|n sd]; [|apply scalar_right; [discriminate|]; eapply Forall_impl; [|exact F]; intros z Z; now apply H]. destruct d as [|y [|? ?]]; try (specialize (L eq_refl); discriminate). apply scalar_left. inversion_clear F. repeat constructor. now apply H.
  - apply scalar_left. eapply Forall_impl; [|exact F]. intros z Z. now apply H.
Qed.
Lemma data_sym v w : good_variable w -> agreeing_data 0 0 v w -> agreeing_data 0 0 w v.
Proof.
  intros [_ S1]. inversion 1 as [? ? l m E1 E2 Ar|? ? l m E1 E2 Ar]; subst; rewrite E2 in S1; cbn [count] in S1.
  - apply (agree_numbers _ _ _ _ m l); auto. eapply arrays_sym; [|exact S1|exact Ar]. intros x y N. apply near_exact. apply near_exact in N. destruct N as [N|[-> ->]]; [left; now apply equal_sym|now right].
  - apply (agree_others _ _ _ _ m l); auto. eapply arrays_sym; [|exact S1|exact Ar]. auto.
Qed.
Theorem C110_symmetric ex ig a : forall d, good d -> agrees 0 0 ex ig a d -> agrees 0 0 ex ig d a.
Proof.
  induction a as [aa ad av ag IH] using dataset_ind'. intros d G H. inversion H as [? ? ? ? da dd dv dg A1 A2 A3 A4]; subst. inversion G as [? ? ? ? G1 G2 G3 G4 G5 G6]; subst. apply agrees_group.
  - eapply agree_on_sym; [|exact A1]. intros. now apply attributes_sym.
  - eapply agree_on_sym; [|exact A2]. intros. now symmetry.
  - intros k N. destruct (A3 k N) as [X Y]. split; [now symmetry|]. intros w v I2 I1. destruct (Y v w I1 I2) as [Y1 Y2].
    assert (Z : agreeing_variables 0 0 ig v w). { destruct (in_dec string_dec k (coord_vars ex av dv)) as [C|C]; [apply Y1; now apply coord_iff|apply Y2; intro C2; apply C; now apply coord_iff]. }
    assert (Z' : agreeing_variables 0 0 ig w v). { destruct Z as (Z1 & Z2 & Z3). split; [now symmetry|]. split; [eapply agree_on_sym; [|exact Z2]; intros; now apply attributes_sym|]. apply data_sym; [exact (G5 k w I2)|exact Z3]. }
    split; intros _; exact Z'.
  - intros k N. destruct (A4 k N) as [X Y]. split; [now symmetry|]. intros w v I2 I1. apply (IH k v I1); eauto.
Qed.
Definition one (x : Q) : dataset := Group [] [] [("v", {| va_dtype := "float32"; va_dims := []; va_shape := []; va_data := Numbers [Finite x]; va_attrs := [] |})] [].
Theorem C110_symmetric_refuted : ~ (forall r t ex ig a d, (0 <= r)%Q -> (0 <= t)%Q -> compare_netcdfs r t ex ig (Some a) (Some d) = [] -> compare_netcdfs r t ex ig (Some d) (Some a) = []).
Proof. intro H. specialize (H (1 # 10) 0%Q [] [] (one 9) (one 10) ltac:(discriminate) ltac:(discriminate) eq_refl). vm_compute in H. discriminate. Qed.
(** The dimensions of variables are not compared: a field on (y, x) and one on (x, y) agree when the grid is square; neither is the shape when one variable is a scalar. *)
Definition on_dims (dims : list string) (shape : list nat) (l : list number) : dataset :=
  Group [] [("x", 2%nat); ("y", 2%nat)] [("v", {| va_dtype := "float32"; va_dims := dims; va_shape := shape; va_data := Numbers l; va_attrs := [] |})] [].
Theorem C110_dimensions_refuted : ~ (forall a d, compare_netcdfs 0 0 [] [] (Some a) (Some d) = [] -> forall aa ad av ag da dd dv dg, a = Group aa ad av ag -> d = Group da dd dv dg -> forall k v w, In (k, v) av -> In (k, w) dv -> va_dims v = va_dims w).
Proof. intro H. pose (l := [Finite 1; Finite 2; Finite 3; Finite 4]). specialize (H (on_dims ["y"; "x"] [2; 2]%nat l) (on_dims ["x"; "y"] [2; 2]%nat l) eq_refl _ _ _ _ _ _ _ _ eq_refl eq_refl "v" _ _ (or_introl eq_refl) (or_introl eq_refl)). discriminate. Qed.
Theorem C110_shape_refuted : ~ (forall a d, compare_netcdfs 0 0 [] [] (Some a) (Some d) = [] -> forall aa ad av ag da dd dv dg, a = Group aa ad av ag -> d = Group da dd dv dg -> forall k v w, In (k, v) av -> In (k, w) dv -> va_shape v = va_shape w).
Proof. intro H. specialize (H (on_dims ["y"; "x"] [2; 2]%nat [Finite 1; Finite 1; Finite 1; Finite 1]) (on_dims [] [] [Finite 1]) eq_refl _ _ _ _ _ _ _ _ eq_refl eq_refl "v" _ _ (or_introl eq_refl) (or_introl eq_refl)). discriminate. Qed.
(** Without scalars agreeing numbers have the same shape and are close one by one. *)
Theorem C110_numbers r t v w l m : agreeing_data r t v w -> va_data v = Numbers l -> va_data w = Numbers m -> va_shape v <> [] -> va_shape w <> [] -> va_shape v = va_shape w /\ Forall2 (near r t) l m.
Proof. intros H E1 E2 S1 S2. inversion H as [? ? l' m' Q1 Q2 Ar|? ? l' m' Q1 Q2 Ar]; subst; [|congruence]. assert (l' = l) by congruence. assert (m' = m) by congruence. subst. inversion Ar; subst; try congruence. auto. Qed.
Example C110_case : exists a d, good d /\ compare_netcdfs (1 # 100) (1 # 100) ["cell_area"] ["history"] (Some a) (Some d) = [] /\ compare_netcdfs (1 # 10000) (1 # 10000) ["cell_area"] ["history"] (Some a) (Some d) <> [] /\ compare_netcdfs (1 # 100) (1 # 100) [] ["history"] (Some a) (Some d) <> [].
Proof.
  pose (x := {| va_dtype := "float32"; va_dims := ["x"]; va_shape := [2%nat]; va_data := Numbers [Finite 0; Finite 2000]; va_attrs := [("units", AText "m")] |}).
  pose (v := fun b => {| va_dtype := "float32"; va_dims := ["x"]; va_shape := [2%nat]; va_data := Numbers [Finite b; NaN]; va_attrs := [("units", AText "K")] |}).
  exists (Group [("history", AText "now"); ("title", AText "t")] [("x", 2%nat)] [("x", x); ("air_temperature", v 281%Q); ("cell_area", x)] [("g", one 1)]).
  exists (Group [("title", AText "t")] [("x", 2%nat)] [("air_temperature", v 280%Q); ("x", x)] [("g", one 1)]).
  split; [|split; [reflexivity|split; discriminate]].
  assert (ND : forall a b : string, a <> b -> NoDup [a; b]) by (intros a b N; repeat constructor; cbn; intuition congruence).
  apply good_group; try dct; [|].
  - intros k y [E|[E|[]]]; injection E as <- <-; (split; [dct|discriminate]).
  - intros k y [E|[]]. injection E as <- <-. apply good_group; try dct; [|intros ? ? []]. intros k y [E|[]]. injection E as <- <-. split; [dct|reflexivity].
Qed.

Print Assumptions C110_datasets.
Print Assumptions C110_agree.
Print Assumptions C110_open.
Print Assumptions C110_coordinates.
Print Assumptions C110_wider.
Print Assumptions C110_self.
Print Assumptions C110_self_refuted.
Print Assumptions C110_symmetric.
Print Assumptions C110_symmetric_refuted.
Print Assumptions C110_dimensions_refuted.
Print Assumptions C110_shape_refuted.
Print Assumptions C110_numbers.
