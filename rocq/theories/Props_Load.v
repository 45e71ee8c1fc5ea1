(** C128: loaded cubes: which cubes, the order of their dimensions, and what is taken off their metadata. *)
From Coq Require Import Permutation.
From Verif Require Import Base Model_Manip Props_Manip Model_Load.
Open Scope string_scope.
Open Scope list_scope.

(** ** The order of the dimensions *)
Definition names {A} (l : loaded A) : list (option string) := map fst (cb_dims (ld_cube l)).
(** Those of [want] that are dimensions. *)
Definition those {A} (l : loaded A) (want : list string) : list string := filter (fun s => existsb (dim_is s) (cb_dims (ld_cube l))) want.
Definition unlisted (taken : list string) (dims : list (option string)) : list (option string) := filter (fun n => negb (existsb (fun s => match n with Some t => String.eqb s t | None => false end) taken)) dims.
(** The threshold dimension of a cube, if one is marked as such. *)
Definition probabilistic (coords : list coordinate) : list string := ["realization"; "percentile"] ++ match threshold_name coords with Some t => [t] | None => [] end.

Lemma strip_axis axis coords : axis_name axis (map strip_coord coords) = axis_name axis coords.
Proof.
  unfold axis_name. assert (E : map co_name (filter (fun c => is_some axis (co_axis c)) (map strip_coord coords)) = map co_name (filter (fun c => is_some axis (co_axis c)) coords)).
  { induction coords as [|c r IH]; [reflexivity|]. cbn [map filter]. assert (X : co_axis (strip_coord c) = co_axis c /\ co_name (strip_coord c) = co_name c) by (unfold strip_coord; destruct (is_some "threshold" (co_var c)); split; reflexivity). destruct X as (X1 & X2). rewrite X1. destruct (is_some axis (co_axis c)); [|exact IH]. cbn [map]. now rewrite X2, IH. }
  destruct (filter (fun c => is_some axis (co_axis c)) (map strip_coord coords)) as [|a [|a' ?]], (filter (fun c => is_some axis (co_axis c)) coords) as [|b [|b' ?]]; cbn in E; try discriminate; try reflexivity. injection E as ->. reflexivity.
Qed.
Lemma strip_threshold coords : threshold_name (map strip_coord coords) = threshold_name coords.
Proof.
  unfold threshold_name. assert (E : map co_name (filter (fun c => String.eqb (co_name c) "threshold") (map strip_coord coords)) = map co_name (filter (fun c => String.eqb (co_name c) "threshold") coords)).
  { induction coords as [|c r IH]; [reflexivity|]. cbn [map filter]. assert (X2 : co_name (strip_coord c) = co_name c) by (unfold strip_coord; destruct (is_some "threshold" (co_var c)); reflexivity). rewrite X2. destruct (String.eqb (co_name c) "threshold"); [|exact IH]. cbn [map]. now rewrite X2, IH. }
  assert (F : option_map co_name (find (fun c => is_some "threshold" (co_var c)) (map strip_coord coords)) = option_map co_name (find (fun c => is_some "threshold" (co_var c)) coords)).
  { clear E. induction coords as [|c r IH]; [reflexivity|]. cbn [map find]. unfold strip_coord at 1. destruct (is_some "threshold" (co_var c)) eqn:V; cbn [co_var is_some]; [|exact IH]. rewrite V. unfold strip_coord. rewrite V. reflexivity. }
  rewrite F. destruct (filter (fun c => String.eqb (co_name c) "threshold") (map strip_coord coords)) as [|a [|a' ?]], (filter (fun c => String.eqb (co_name c) "threshold") coords) as [|b [|b' ?]]; cbn in E; try discriminate; reflexivity.
Qed.
Lemma mapM_both {A B} (f : A -> result B) l r : mapM f l = Ok r -> Forall2 (fun x y => f x = Ok y) l r.
Proof.
  revert r. induction l as [|x l IH]; intros r H; cbn in H; [injection H as <-; constructor|]. destruct (f x) eqn:E; cbn [bind] in H; [|discriminate]. destruct (mapM f l); cbn [bind] in H; [|discriminate]. injection H as <-. constructor; [exact E|]. now apply IH.
Qed.
(** What loading does to a cube that is loaded: nothing is lost. *)
Definition same_data {A} (l l' : loaded A) : Prop := Permutation (cb_dims (ld_cube l')) (cb_dims (ld_cube l)) /\ forall at_, at_labels at_ (ld_cube l') = at_labels at_ (ld_cube l).
Definition tidied {A} (l l' : loaded A) : Prop :=
  same_data l l' /\ ld_long_name l' = ld_long_name l /\ ld_var l' = None /\ ld_attributes l' = filter (fun e => negb (String.eqb (fst e) "bald__isPrefixedBy")) (ld_attributes l) /\
  Forall2 (fun c c' => co_name c' = co_name c /\ co_axis c' = co_axis c /\ co_var c' = if is_some "threshold" (co_var c) then Some "threshold" else None) (ld_coords l) (ld_coords l').
Lemma tidy_inv {A} (l l' : loaded A) : tidy l = Ok l' -> exists c y x, enforce_ordering (ld_cube l) (threshold_name (ld_coords l)) ["realization"; "percentile"; "threshold"] true = Ok c /\
  axis_name "y" (ld_coords l) = Ok y /\ axis_name "x" (ld_coords l) = Ok x /\ enforce_ordering c (threshold_name (ld_coords l)) [y; x] false = Ok (ld_cube l') /\
  ld_long_name l' = ld_long_name l /\ ld_var l' = ld_var l /\ ld_attributes l' = filter (fun e => negb (String.eqb (fst e) "bald__isPrefixedBy")) (ld_attributes l) /\ ld_coords l' = ld_coords l.
Proof.
  unfold tidy. destruct (enforce_ordering (ld_cube l) _ _ true) as [c|] eqn:E1; cbn [bind]; [|discriminate]. destruct (axis_name "y" _) as [y|] eqn:Ey; cbn [bind]; [|discriminate]. destruct (axis_name "x" _) as [x|] eqn:Ex; cbn [bind]; [|discriminate]. destruct (enforce_ordering c _ _ false) as [d|] eqn:E2; cbn [bind]; [|discriminate]. intro H. injection H as <-. exists c, y, x. cbn. auto 10.
Qed.
(** Exactly the wanted cubes other than the legacy prefixes, in the order of the files. *)
Theorem C128_loaded {A} wanted (files : list (list (loaded A))) out : load_cubelist wanted files = Ok out ->
  exists sel, sel = concat (map (filter (fun l => negb (match ld_long_name l with Some n => String.eqb n "prefixes" | None => false end) && wanted l)%bool) files) /\ sel <> [] /\ Forall2 tidied sel out.
Proof.
  unfold load_cubelist. intro H. exists (selected wanted files). split; [unfold selected; now rewrite flat_map_concat_map|]. destruct (selected wanted files) as [|s sel]; [discriminate|]. split; [discriminate|]. apply mapM_both in H. remember (s :: sel) as cubes. clear Heqcubes s sel. revert out H. induction cubes as [|l r IH]; intros out H; inversion H as [|? l' ? out' E F]; subst; constructor; [|now apply IH].
  destruct (tidy_inv _ _ E) as (c & y & x & E1 & _ & _ & E2 & N & V & At & Co). destruct (C75_values _ _ _ _ _ E1) as (P1 & D1), (C75_values _ _ _ _ _ E2) as (P2 & D2). split; [split; [eapply Permutation_trans; [exact P2|exact P1]|intro a; now rewrite D2, D1]|]. split; [exact N|]. split; [exact V|]. split; [exact At|]. rewrite Co. cbn [strip_var_names ld_coords]. clear. induction (ld_coords l) as [|k ks IH]; cbn; constructor; [|exact IH]. unfold strip_coord. destruct (is_some "threshold" (co_var k)) eqn:T; cbn; (split; [reflexivity|split; [reflexivity|]]); [|reflexivity]. unfold is_some in T. destruct (co_var k); [|discriminate]. apply String.eqb_eq in T. now subst.
Qed.
(** Nothing wanted is an error, and so is a cube without one x and one y axis. *)
Theorem C128_nothing {A} wanted (files : list (list (loaded A))) : (forall f l, In f files -> In l f -> ld_long_name l = Some "prefixes" \/ wanted l = false) -> load_cubelist wanted files = Err ValueError.
Proof.
  intro H. unfold load_cubelist. assert (E : selected wanted files = []); [|now rewrite E]. unfold selected. induction files as [|f r IH]; [reflexivity|]. cbn [flat_map]. rewrite IH by (intros g l G; apply H; now right). rewrite app_nil_r. assert (X : forall l, In l f -> (not_prefixes l && wanted l = false)%bool).
  { intros l I'. destruct (H f l (or_introl eq_refl) I') as [E|E]; [|now rewrite E, andb_false_r]. unfold not_prefixes. now rewrite E. }
  clear -X. induction f as [|l f IH]; [reflexivity|]. cbn. rewrite (X l) by now left. apply IH. intros k K. apply X. now right.
Qed.
Lemma forall2_in_right {A B} (R : A -> B -> Prop) l m y : Forall2 R l m -> In y m -> exists x, In x l /\ R x y.
Proof. induction 1 as [|a b l m E F IH]; [intros []|]. intros [<-|I']; [exists a; split; [now left|exact E]|]. destruct (IH I') as (x & X & R'). exists x. split; [now right|exact R']. Qed.
Lemma forall2_in_left {A B} (R : A -> B -> Prop) l m x : Forall2 R l m -> In x l -> exists y, In y m /\ R x y.
Proof. induction 1 as [|a b l m E F IH]; [intros []|]. intros [<-|I']; [exists b; split; [now left|exact E]|]. destruct (IH I') as (y & Y & R'). exists y. split; [now right|exact R']. Qed.
Lemma axis_iff axis coords n : axis_name axis coords = Ok n <-> exists c, filter (fun c => is_some axis (co_axis c)) coords = [c] /\ n = co_name c.
Proof. unfold axis_name. destruct (filter _ coords) as [|c [|? ?]]; (split; [intro H; try discriminate; injection H as <-; eauto|intros (d & E & ->); try discriminate; injection E as ->; reflexivity]). Qed.
Theorem C128_axes {A} wanted (files : list (list (loaded A))) out l : load_cubelist wanted files = Ok out -> In l out -> forall axis, axis = "x" \/ axis = "y" -> exists c, filter (fun c => is_some axis (co_axis c)) (ld_coords l) = [c].
Proof.
  unfold load_cubelist. destruct (selected wanted files) as [|s sel]; [discriminate|]. intro H. apply mapM_both in H. intros I' axis Ax. destruct (forall2_in_right _ _ _ _ H I') as (k & _ & E). destruct (tidy_inv _ _ E) as (c & y & x & _ & Ey & Ex & _ & _ & _ & _ & Co). rewrite Co. apply axis_iff in Ey as (cy & Ey & _), Ex as (cx & Ex & _). destruct Ax as [-> | ->]; eauto.
Qed.

Lemma unlisted_app p dims1 dims2 : unlisted p (dims1 ++ dims2) = unlisted p dims1 ++ unlisted p dims2.
Proof. apply filter_app. Qed.
Lemma unlisted_twice p q dims : unlisted q (unlisted p dims) = unlisted (p ++ q) dims.
Proof.
  unfold unlisted. induction dims as [|n dims IH]; [reflexivity|]. cbn [filter]. rewrite existsb_app. destruct (existsb _ p); cbn [negb orb filter]; [exact IH|]. destruct (existsb _ q); cbn [negb]; [exact IH|]. now rewrite IH.
Qed.
Lemma unlisted_none p q : (forall s, In s p -> ~ In s q) -> unlisted q (map Some p) = map Some p.
Proof.
  unfold unlisted. induction p as [|s p IH]; intro D; [reflexivity|]. cbn [map filter]. assert (E : existsb (fun s0 => String.eqb s0 s) q = false).
  { destruct (existsb (fun s0 => String.eqb s0 s) q) eqn:E; [|reflexivity]. apply existsb_exists in E as (t & T & E). apply String.eqb_eq in E. subst t. exfalso. exact (D s (or_introl eq_refl) T). }
  rewrite E. cbn [negb]. f_equal. apply IH. intros t T. apply D. now right.
Qed.
Lemma meant_probabilistic coords : meant (threshold_name coords) ["realization"; "percentile"; "threshold"] = probabilistic coords.
Proof. unfold meant, probabilistic. cbn. now rewrite app_nil_r. Qed.
Lemma filter_same {A} (f g : A -> bool) l : (forall x, f x = g x) -> filter f l = filter g l.
Proof. intro E. induction l as [|x l IH]; [reflexivity|]. cbn. now rewrite E, IH. Qed.
Lemma tidy_order {A} (l : loaded A) y x : all_named (ld_cube l) -> axis_name "y" (ld_coords l) = Ok y -> axis_name "x" (ld_coords l) = Ok x -> y <> "threshold" -> x <> "threshold" -> y <> x ->
  NoDup (those l (probabilistic (ld_coords l))) -> ~ In y (probabilistic (ld_coords l)) -> ~ In x (probabilistic (ld_coords l)) ->
  exists l', tidy l = Ok l' /\ names l' = map Some (those l (probabilistic (ld_coords l))) ++ unlisted (those l (probabilistic (ld_coords l)) ++ those l [y; x]) (names l) ++ map Some (those l [y; x]).
Proof.
  intros N Ey Ex Ny Nx Nyx Np Dy Dx. unfold tidy. destruct (C75_order (ld_cube l) (threshold_name (ld_coords l)) ["realization"; "percentile"; "threshold"] true N) as (c & E1 & D1).
  { rewrite meant_probabilistic. exact Np. }
  rewrite E1. cbn [bind]. rewrite Ey, Ex. cbn [bind]. rewrite meant_probabilistic in D1. fold (those l (probabilistic (ld_coords l))) in D1. set (p := those l (probabilistic (ld_coords l))) in *. cbv zeta in D1.
  destruct (C75_values _ _ _ _ _ E1) as (P1 & _). assert (Pn : Permutation (map fst (cb_dims c)) (map fst (cb_dims (ld_cube l)))) by now apply Permutation_map.
  assert (Nc : all_named c). { destruct N as (N1 & N2). split; [apply (Permutation_NoDup (Permutation_sym Pn)); exact N1|]. intro H. apply N2. exact (Permutation_in _ Pn H). }
  assert (Th : those l [y; x] = filter (fun s => existsb (dim_is s) (cb_dims c)) (meant (threshold_name (ld_coords l)) [y; x])).
  { unfold meant. cbn [flat_map]. destruct (String.eqb_spec y "threshold"); [contradiction|]. destruct (String.eqb_spec x "threshold"); [contradiction|]. cbn [app]. unfold those. apply filter_same. intro s. apply eq_true_iff_eq. rewrite !existsb_dim. split; intro H; [exact (Permutation_in _ (Permutation_sym Pn) H)|exact (Permutation_in _ Pn H)]. }
  destruct (C75_order c (threshold_name (ld_coords l)) [y; x] false Nc) as (d & E2 & D2).
  { rewrite <- Th. unfold those. apply NoDup_filter. constructor; [intros [E|[]]; congruence|constructor; [intros []|constructor]]. }
  rewrite E2. cbn [bind]. eexists. split; [reflexivity|]. unfold names. cbn [ld_cube]. rewrite <- Th in D2. cbv zeta in D2. rewrite D2, D1. fold (unlisted p (map fst (cb_dims (ld_cube l)))). fold (unlisted (those l [y; x]) (map Some p ++ unlisted p (map fst (cb_dims (ld_cube l))))).
  rewrite unlisted_app, unlisted_twice, unlisted_none; [now rewrite <- app_assoc|]. intros s Sp Sy. unfold p, those in Sp. apply filter_In in Sp as (Sp & _). unfold those in Sy. apply filter_In in Sy as ([<-|[<-|[]]] & _); contradiction.
Qed.
(** A wanted cube whose dimensions are all named is loaded with realization, percentile and threshold first, in that order, and y and x last; the others stay in between in their order. *)
Theorem C128_order {A} wanted (files : list (list (loaded A))) out f l : load_cubelist wanted files = Ok out -> In f files -> In l f -> ld_long_name l <> Some "prefixes" -> wanted l = true ->
  all_named (ld_cube l) -> (forall y x, axis_name "y" (ld_coords l) = Ok y -> axis_name "x" (ld_coords l) = Ok x -> y <> x /\ ~ In y ("threshold" :: probabilistic (ld_coords l)) /\ ~ In x ("threshold" :: probabilistic (ld_coords l))) -> NoDup (those l (probabilistic (ld_coords l))) ->
  exists l' y x, In l' out /\ tidied l l' /\ axis_name "y" (ld_coords l) = Ok y /\ axis_name "x" (ld_coords l) = Ok x /\
    names l' = map Some (those l (probabilistic (ld_coords l))) ++ unlisted (those l (probabilistic (ld_coords l)) ++ those l [y; x]) (names l) ++ map Some (those l [y; x]).
Proof.
  intros H If Il Np W N Ax Nd. destruct (C128_loaded _ _ _ H) as (sel & Es & Ns & F). unfold load_cubelist in H.
  assert (Is : In l (selected wanted files)). { unfold selected. apply in_flat_map. exists f. split; [exact If|]. apply filter_In. split; [exact Il|]. rewrite W, andb_true_r. unfold not_prefixes, is_some. destruct (ld_long_name l) as [n|]; [|reflexivity]. destruct (String.eqb_spec n "prefixes") as [->|]; [congruence|reflexivity]. }
  assert (Sel : sel = selected wanted files) by (subst sel; unfold selected; now rewrite flat_map_concat_map). clear Es. subst sel.
  assert (M : mapM tidy (map strip_var_names (selected wanted files)) = Ok out) by (destruct (selected wanted files); [congruence|exact H]). apply mapM_both in M. clear H.
  assert (G : exists l', In l' out /\ tidied l l' /\ tidy (strip_var_names l) = Ok l').
  { clear -F M Is. revert out F M. induction (selected wanted files) as [|k ks IH]; intros out F M; [destruct Is|]. inversion F as [|? k' ? out' T F']; subst. cbn [map] in M. inversion M as [|? ? ? ? E M']; subst. destruct Is as [->|Is]; [exists k'; split; [now left|split; assumption]|]. destruct (IH Is out' F' M') as (l' & I' & X). exists l'. split; [now right|exact X]. }
  destruct G as (l' & I' & T & E). destruct (tidy_inv _ _ E) as (c & y & x & _ & Ey & Ex & _). cbn [strip_var_names ld_coords] in Ey, Ex. rewrite strip_axis in Ey, Ex. destruct (Ax y x Ey Ex) as (Nyx & Dy & Dx). exists l', y, x. split; [exact I'|]. split; [exact T|]. split; [exact Ey|]. split; [exact Ex|].
  assert (Pr : probabilistic (ld_coords (strip_var_names l)) = probabilistic (ld_coords l)) by (unfold probabilistic; cbn [strip_var_names ld_coords]; now rewrite strip_threshold).
  destruct (tidy_order (strip_var_names l) y x N) as (l2 & E2 & D); [cbn [strip_var_names ld_coords]; now rewrite strip_axis|cbn [strip_var_names ld_coords]; now rewrite strip_axis|intros ->; apply Dy; now left|intros ->; apply Dx; now left|exact Nyx|rewrite Pr; exact Nd|rewrite Pr; intro K; apply Dy; now right|rewrite Pr; intro K; apply Dx; now right|].
  rewrite E2 in E. injection E as ->. rewrite Pr in D. exact D.
Qed.
(** One cube needs no merging; several are given to the merge as they are. *)
Theorem C128_one {A} merge wanted (files : list (list (loaded A))) : match load_cubelist wanted files with Ok [c] => load_cube merge wanted files = Ok c | Ok cs => load_cube merge wanted files = merge cs | Err e => load_cube merge wanted files = Err e end.
Proof. unfold load_cube. destruct (load_cubelist wanted files) as [[|c [|c' cs]]|e]; reflexivity. Qed.
(** Dimensions that are in this order already stay as they are. *)
Theorem C128_stable (p yx : list string) (m dims : list (option string)) : dims = map Some p ++ m ++ map Some yx -> (forall n, In n m -> forall s, In s (p ++ yx) -> n <> Some s) -> map Some p ++ unlisted (p ++ yx) dims ++ map Some yx = dims.
Proof.
  intros -> D. f_equal. f_equal. rewrite !unlisted_app. assert (S : forall q r, (forall s, In s q -> In s r) -> unlisted r (map Some q) = []).
  { intros q r I'. unfold unlisted. induction q as [|s q IH]; [reflexivity|]. cbn [map filter]. replace (existsb (fun s0 => String.eqb s0 s) r) with true; [apply IH; intros t T; apply I'; now right|]. symmetry. apply existsb_exists. exists s. split; [apply I'; now left|apply String.eqb_refl]. }
  rewrite (S p (p ++ yx)) by (intros s H; apply in_app_iff; now left). rewrite (S yx (p ++ yx)) by (intros s H; apply in_app_iff; now right). rewrite app_nil_r. cbn [app]. clear S. unfold unlisted. induction m as [|n m IH]; [reflexivity|]. cbn [filter]. replace (existsb _ (p ++ yx)) with false; [cbn [negb]; f_equal; apply IH; intros k K; apply D; now right|].
  symmetry. destruct (existsb _ (p ++ yx)) eqn:E; [|reflexivity]. apply existsb_exists in E as (s & I' & E). exfalso. destruct n as [t|]; [|discriminate]. apply String.eqb_eq in E. subst s. exact (D (Some t) (or_introl eq_refl) t I' eq_refl).
Qed.
Definition case_coords : list coordinate := [{| co_name := "longitude"; co_var := Some "longitude"; co_axis := Some "x" |}; {| co_name := "latitude"; co_var := None; co_axis := Some "y" |}; {| co_name := "air_temperature"; co_var := Some "threshold"; co_axis := None |}; {| co_name := "time"; co_var := Some "time"; co_axis := Some "t" |}; {| co_name := "realization"; co_var := Some "r"; co_axis := None |}].
Definition case_loaded : loaded nat := {| ld_long_name := Some "probability_of_air_temperature_above_threshold"; ld_var := Some "p"; ld_attributes := [("title", "t"); ("bald__isPrefixedBy", "q")]; ld_coords := case_coords;
  ld_cube := {| cb_dims := [(Some "longitude", 3%nat); (Some "time", 2%nat); (Some "air_temperature", 4%nat); (Some "latitude", 5%nat); (Some "realization", 2%nat)]; cb_data := fun i => nth 0 i 0%nat |} |}.
Definition case_prefixes : loaded nat := {| ld_long_name := Some "prefixes"; ld_var := None; ld_attributes := []; ld_coords := []; ld_cube := {| cb_dims := []; cb_data := fun _ => 0%nat |} |}.
Example C128_case : match load_cube (fun _ => Err MergeError) (fun _ => true) [[case_prefixes; case_loaded]] with
  | Ok l => names l = [Some "realization"; Some "air_temperature"; Some "time"; Some "latitude"; Some "longitude"] /\ ld_var l = None /\ ld_attributes l = [("title", "t")] /\ map co_var (ld_coords l) = [None; None; Some "threshold"; None; None] /\ cb_data (ld_cube l) [1; 3; 0; 4; 2]%nat = 2%nat
  | Err _ => False end.
Proof. vm_compute. repeat split; reflexivity. Qed.

Print Assumptions C128_loaded.
Print Assumptions C128_nothing.
Print Assumptions C128_axes.
Print Assumptions C128_order.
Print Assumptions C128_one.
Print Assumptions C128_stable.
