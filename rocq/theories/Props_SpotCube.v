(** C123: the layout of a spot cube (build_spotdata_cube). *)
From Verif Require Import Base Model_SpotCube Proofs_Nbhood.
Local Open Scope nat_scope.
Local Open Scope list_scope.

(** What the caller describes: the dimensions in order, each with the auxiliary coordinates that vary along it; the sites come last. *)
Definition dimension : Type := (coord * list coord)%type.
Definition co (n : string) (k : nat) : coord := {| c_name := n; c_len := k |}.
Definition optional (dim_name key_name : string) (members : option nat) : list dimension := match members with None => [] | Some n => [(co dim_name n, [co key_name n])] end.
Definition site_coords (altitudes latitudes longitudes wmo_ids : nat) (unique : option (string * nat)) : list coord :=
  [co "altitude" altitudes; co "latitude" latitudes; co "longitude" longitudes; co "wmo_id" wmo_ids] ++ match unique with None => [] | Some (k, n) => [co k n] end.
Definition described (methods attributes : option nat) (further : list dimension) (sites : nat) (of_sites : list coord) : list dimension :=
  optional "neighbour_selection_method" "neighbour_selection_method_name" methods ++ optional "grid_attributes" "grid_attributes_key" attributes ++ further ++ [(co "spot_index" sites, of_sites)].
(** numbered from the first dimension of the data on *)
Definition numbered (i : nat) (l : list dimension) : list (coord * nat) := combine (map fst l) (seq i (length l)).
Definition along (i : nat) (l : list dimension) : list (coord * option nat) := concat (map (fun p => map (fun c => (c, Some (snd p))) (snd (fst p))) (combine l (seq i (length l)))).
(** a cube can be made: distinct names, every coordinate as long as its dimension, scalars of one point *)
Definition fits (shape : list nat) (dims : list (coord * nat)) (aux : list (coord * option nat)) : Prop :=
  NoDup (map (fun p => c_name (fst p)) dims ++ map (fun p => c_name (fst p)) aux) /\
  (forall c d, In (c, d) dims -> nth_error shape d = Some (c_len c)) /\
  (forall c, In (c, None) aux -> c_len c = 1) /\
  (forall c d, In (c, Some d) aux -> nth_error shape d = Some (c_len c)).

Lemma existsb_name n names : existsb (String.eqb n) names = true <-> In n names.
Proof. rewrite existsb_exists. split; [intros (x & H & E); apply String.eqb_eq in E; subst; exact H|intro H; exists n; split; [exact H|apply String.eqb_refl]]. Qed.
Lemma add_dims_iff shape : forall l names used out, add_dims shape names used l = Ok out <->
  out = rev (map (fun p => c_name (fst p)) l) ++ names /\ NoDup (map (fun p => c_name (fst p)) l) /\ (forall p, In p l -> ~ In (c_name (fst p)) names) /\
  NoDup (map snd l) /\ (forall p, In p l -> ~ In (snd p) used) /\ forall c d, In (c, d) l -> nth_error shape d = Some (c_len c).
Proof.
  induction l as [|[c d] l IH]; intros names used out; cbn [add_dims].
  - cbn. split; [intro H; injection H as <-; repeat split; try constructor; tauto|intros (-> & _); reflexivity].
  - destruct (existsb (String.eqb (c_name c)) names) eqn:E1.
    { apply existsb_name in E1. split; [discriminate|]. intros (_ & _ & H & _). exfalso. apply (H (c, d)); [now left|exact E1]. }
    destruct (existsb (Nat.eqb d) used) eqn:E2.
    { apply existsb_exists in E2 as (x & Hx & E). apply Nat.eqb_eq in E. subst x. split; [discriminate|]. intros (_ & _ & _ & _ & H & _). exfalso. apply (H (c, d)); [now left|exact Hx]. }
    assert (N1 : ~ In (c_name c) names) by (rewrite <- existsb_name, E1; discriminate).
    assert (N2 : ~ In d used) by (intro H; assert (existsb (Nat.eqb d) used = true) by (apply existsb_exists; exists d; split; [exact H|apply Nat.eqb_refl]); congruence).
    destruct (nth_error shape d) as [n|] eqn:E3.
    2: { split; [discriminate|]. intros (_ & _ & _ & _ & _ & H). rewrite (H c d (or_introl eq_refl)) in E3. discriminate. }
    destruct (Nat.eqb_spec n (c_len c)) as [E4|E4]; cbn [negb].
    2: { split; [discriminate|]. intros (_ & _ & _ & _ & _ & H). rewrite (H c d (or_introl eq_refl)) in E3. injection E3 as <-. contradiction. }
    subst n. rewrite IH. cbn [map rev fst snd]. rewrite <- app_assoc. cbn [app]. split.
    + intros (-> & A & B & C & D & F). split; [reflexivity|]. split; [constructor; [|exact A]|].
      { intro H. apply in_map_iff in H as (p & Ep & Hp). apply (B p Hp). rewrite Ep. now left. }
      split; [intros p [<-|Hp]; [exact N1|intro H; apply (B p Hp); now right]|]. split; [constructor; [|exact C]|].
      { intro H. apply in_map_iff in H as (p & Ep & Hp). apply (D p Hp). rewrite Ep. now left. }
      split; [intros p [<-|Hp]; [exact N2|intro H; apply (D p Hp); now right]|]. intros c' d' [H|H]; [injection H as <- <-; exact E3|apply F, H].
    + intros (-> & A & B & C & D & F). inversion A as [|? ? A1 A2]; inversion C as [|? ? C1 C2]; subst. split; [reflexivity|]. split; [exact A2|].
      split; [intros p Hp [H|H]; [apply A1; rewrite H; apply in_map_iff; exists p; split; [reflexivity|exact Hp]|apply (B p); [now right|exact H]]|].
      split; [exact C2|]. split; [intros p Hp [H|H]; [apply C1; rewrite H; apply in_map, Hp|apply (D p); [now right|exact H]]|]. intros c' d' H. apply F. now right.
Qed.
Lemma add_aux_iff shape : forall l names, add_aux shape names l = Ok tt <->
  NoDup (map (fun p => c_name (fst p)) l) /\ (forall p, In p l -> ~ In (c_name (fst p)) names) /\
  (forall c, In (c, None) l -> c_len c = 1) /\ forall c d, In (c, Some d) l -> nth_error shape d = Some (c_len c).
Proof.
  induction l as [|[c d] l IH]; intro names; cbn [add_aux].
  - cbn. split; [intros _; repeat split; try constructor; tauto|reflexivity].
  - destruct (existsb (String.eqb (c_name c)) names) eqn:E1.
    { apply existsb_name in E1. split; [discriminate|]. intros (_ & H & _). exfalso. apply (H (c, d)); [now left|exact E1]. }
    assert (N1 : ~ In (c_name c) names) by (rewrite <- existsb_name, E1; discriminate).
    assert (STEP : (add_aux shape (c_name c :: names) l = Ok tt /\ match d with None => c_len c = 1 | Some k => nth_error shape k = Some (c_len c) end) <->
      NoDup (map (fun p => c_name (fst p)) ((c, d) :: l)) /\ (forall p, In p ((c, d) :: l) -> ~ In (c_name (fst p)) names) /\
      (forall c', In (c', None) ((c, d) :: l) -> c_len c' = 1) /\ forall c' d', In (c', Some d') ((c, d) :: l) -> nth_error shape d' = Some (c_len c')).
    { rewrite IH. cbn [map fst]. split.
      - intros [(A & B & C & D) F]. split; [constructor; [|exact A]|].
        { intro H. apply in_map_iff in H as (p & Ep & Hp). apply (B p Hp). rewrite Ep. now left. }
        split; [intros p [<-|Hp]; [exact N1|intro H; apply (B p Hp); now right]|].
        split; [intros c' [H|H]; [injection H as <- ->; exact F|apply C, H]|intros c' d' [H|H]; [injection H as <- ->; exact F|apply D, H]].
      - intros (A & B & C & D). inversion A as [|? ? A1 A2]; subst. split; [|destruct d; [apply D|apply C]; now left].
        split; [exact A2|]. split; [intros p Hp [H|H]; [apply A1; rewrite H; apply in_map_iff; exists p; split; [reflexivity|exact Hp]|apply (B p); [now right|exact H]]|].
        split; [intros c' H; apply C; now right|intros c' d' H; apply D; now right]. }
    rewrite <- STEP. destruct d as [k|].
    + destruct (nth_error shape k) as [n|]; [|split; [discriminate|intros [_ H]; discriminate]]. destruct (Nat.eqb_spec n (c_len c)) as [E|NE]; [rewrite E; split; [intro A; split; [exact A|reflexivity]|intros [A _]; exact A]|split; [discriminate|intros [_ H]; congruence]].
    + destruct (Nat.eqb_spec (c_len c) 1) as [E|NE]; [split; [intro A; split; [exact A|exact E]|intros [A _]; exact A]|split; [discriminate|intros [_ H]; contradiction]].
Qed.
Lemma cube_iff name shape dims aux s : NoDup (map snd dims) -> (cube name shape dims aux = Ok s <-> fits shape dims aux /\ s = {| s_name := name; s_shape := shape; s_dims := dims; s_aux := aux |}).
Proof.
  intro ND. unfold cube. destruct (add_dims shape [] [] dims) as [names|e] eqn:A.
  - apply add_dims_iff in A as (-> & A1 & _ & _ & _ & A2). cbn [bind]. rewrite app_nil_r. destruct (add_aux shape (rev (map (fun p => c_name (fst p)) dims)) aux) as [[]|e] eqn:B.
    + apply add_aux_iff in B as (B1 & B2 & B3 & B4). cbn [bind]. split; [|intros [_ ->]; reflexivity]. intro H. apply Ok_inj in H. split; [|congruence]. split; [|split; [exact A2|split; [exact B3|exact B4]]].
      clear - A1 B1 B2. induction (map (fun p => c_name (fst p)) dims) as [|x l IH] in A1, B2 |- *; [exact B1|]. inversion A1; subst. cbn [app]. constructor.
      * rewrite in_app_iff. intros [H|H]; [contradiction|]. apply in_map_iff in H as (p & E & Hp). apply (B2 p Hp). rewrite E. cbn [rev]. apply in_or_app. right. now left.
      * apply IH; [assumption|]. intros p Hp H. apply (B2 p Hp). cbn [rev]. apply in_or_app. left. exact H.
    + split; [discriminate|]. intros [(F1 & F2 & F3 & F4) _]. exfalso. assert (X : add_aux shape (rev (map (fun p => c_name (fst p)) dims)) aux = Ok tt); [|congruence].
      apply add_aux_iff. assert (N : NoDup (map (fun p => c_name (fst p)) aux) /\ forall x, In x (map (fun p => c_name (fst p)) dims) -> ~ In x (map (fun p => c_name (fst p)) aux)).
      { clear - F1. induction (map (fun p => c_name (fst p)) dims) as [|x l IH]; [split; [exact F1|intros ? []]|]. cbn [app] in F1. inversion F1 as [|? ? G1 G2]; subst. destruct (IH G2) as [I1 I2]. split; [exact I1|].
        intros y [<-|Hy]; [intro H; apply G1; apply in_or_app; right; exact H|apply I2, Hy]. }
      split; [apply N|]. split; [|split; [exact F3|exact F4]]. intros p Hp H. apply in_rev in H. apply (proj2 N _ H). apply in_map_iff. exists p. split; [reflexivity|exact Hp].
  - split; [discriminate|]. intros [(F1 & F2 & _) _]. exfalso. assert (X : add_dims shape [] [] dims = Ok (rev (map (fun p => c_name (fst p)) dims) ++ [])); [|congruence].
    apply add_dims_iff. split; [reflexivity|]. split; [|split; [intros ? ? []|split; [exact ND|split; [intros ? ? []|exact F2]]]].
    clear - F1. induction (map (fun p => c_name (fst p)) dims) as [|x l IH]; [constructor|]. cbn [app] in F1. inversion F1; subst. constructor; [intro H; apply H1; apply in_or_app; now left|apply IH; assumption].
Qed.

Lemma further_spec : forall l i, further_dims l i = (numbered i l, along i l, i + length l).
Proof.
  induction l as [|[c aux] l IH]; intro i; cbn [further_dims]; [unfold numbered, along; cbn; rewrite Nat.add_0_r; reflexivity|].
  rewrite IH. unfold numbered, along. cbn [map fst length seq combine concat snd]. f_equal. lia.
Qed.
Lemma numbered_app i l m : numbered i (l ++ m) = numbered i l ++ numbered (i + length l) m.
Proof. unfold numbered. revert i. induction l as [|a l IH]; intro i; [cbn; rewrite Nat.add_0_r; reflexivity|]. cbn [app map length seq combine]. rewrite IH. cbn [length]. rewrite <- Nat.add_succ_comm. reflexivity. Qed.
Lemma along_app i l m : along i (l ++ m) = along i l ++ along (i + length l) m.
Proof. unfold along. revert i. induction l as [|a l IH]; intro i; [cbn; rewrite Nat.add_0_r; reflexivity|]. cbn [app length seq combine map concat]. rewrite IH. cbn [length]. rewrite <- app_assoc, <- Nat.add_succ_comm. reflexivity. Qed.
Lemma named_spec d k m i : named_dimension d k m i = (numbered i (optional d k m), along i (optional d k m), i + length (optional d k m)).
Proof. destruct m as [n|]; cbn; [|rewrite Nat.add_0_r; reflexivity]. f_equal. lia. Qed.
Lemma numbered_snd i l : map snd (numbered i l) = seq i (length l).
Proof. unfold numbered. revert i. induction l as [|a l IH]; intro i; [reflexivity|]. cbn. rewrite IH. reflexivity. Qed.

(** the further dimensions with their coordinates, when the lists match *)
Definition further (additional : option (list coord)) (additional_aux : option (list (list coord))) (l : list dimension) : Prop :=
  match additional with
  | None => l = []
  | Some dims => map fst l = dims /\ match additional_aux with None | Some [] => Forall (fun d => snd d = []) l | Some aux => map snd l = aux end
  end.
Definition unique_of (unique : option nat) (key : option string) (u : option (string * nat)) : Prop :=
  match unique with None => u = None | Some n => exists k, key = Some k /\ k <> ""%string /\ u = Some (k, n) end.
Definition shape_of (data : data_shape) : list nat := match data with Scalar => [1] | Shaped s => s end.

Lemma combine_fst_snd {A B} (l : list (A * B)) : combine (map fst l) (map snd l) = l.
Proof. induction l as [|[a b] l IH]; cbn; [reflexivity|]. rewrite IH. reflexivity. Qed.

(** C123: when every further dimension has its list of coordinates (or none has), the cube has the data as given; its dimensions are, in order, those described (methods, attributes, further ones, sites), and the coordinates of each dimension vary along it; it is made exactly when the names are distinct, each coordinate is as long as its dimension of the data, and unique identifiers have a name. *)
Theorem C123_layout data name a la lo w unique key scalars auxiliary methods attributes additional additional_aux l u s front sites :
  further additional additional_aux l -> unique_of unique key u -> shape_of data = front ++ [sites] ->
  let dims := described methods attributes l sites (site_coords a la lo w u ++ auxiliary) in
  build data name a la lo w unique key scalars auxiliary methods attributes additional additional_aux = Ok s <->
  fits (shape_of data) (numbered 0 dims) (map (fun c => (c, None)) scalars ++ along 0 dims) /\
  s = {| s_name := name; s_shape := shape_of data; s_dims := numbered 0 dims; s_aux := map (fun c => (c, None)) scalars ++ along 0 dims |}.
Proof.
  intros FU UN SH dims. rewrite <- cube_iff by (rewrite numbered_snd; apply seq_NoDup). unfold build.
  assert (U : match unique with None => Ok [] | Some n => match key with None | Some ""%string => Err ValueError | Some k => Ok [{| c_name := k; c_len := n |}] end end = Ok (match u with None => [] | Some (k, n) => [co k n] end)).
  { unfold unique_of in UN. destruct unique as [n|]; [|subst; reflexivity]. destruct UN as (k & -> & NE & ->). destruct k; [contradiction|reflexivity]. }
  rewrite U. cbn [bind]. change (match data with Scalar => [1] | Shaped s0 => s0 end) with (shape_of data). rewrite SH at 1. rewrite rev_app_distr. cbn [rev app]. rewrite !named_spec.
  assert (F : match additional with None => ([], [], 0 + length (optional "neighbour_selection_method" "neighbour_selection_method_name" methods) + length (optional "grid_attributes" "grid_attributes_key" attributes)) | Some l0 => further_dims (combine l0 (aux_lists l0 additional_aux)) (0 + length (optional "neighbour_selection_method" "neighbour_selection_method_name" methods) + length (optional "grid_attributes" "grid_attributes_key" attributes)) end =
    (numbered (0 + length (optional "neighbour_selection_method" "neighbour_selection_method_name" methods) + length (optional "grid_attributes" "grid_attributes_key" attributes)) l, along (0 + length (optional "neighbour_selection_method" "neighbour_selection_method_name" methods) + length (optional "grid_attributes" "grid_attributes_key" attributes)) l, 0 + length (optional "neighbour_selection_method" "neighbour_selection_method_name" methods) + length (optional "grid_attributes" "grid_attributes_key" attributes) + length l)).
  { unfold further in FU. destruct additional as [ds|]; [|subst l; cbn [length]; rewrite Nat.add_0_r; reflexivity]. destruct FU as [<- FA]. rewrite <- further_spec. f_equal.
    unfold aux_lists. destruct additional_aux as [[|x xs]|]; [..|].
    - clear - FA. induction FA as [|[c aux] l E FA IH]; [reflexivity|]. cbn in *. subst. rewrite IH. reflexivity.
    - rewrite <- FA. apply combine_fst_snd.
    - clear - FA. induction FA as [|[c aux] l E FA IH]; [reflexivity|]. cbn in *. subst. rewrite IH. reflexivity. }
  rewrite F. unfold dims, described. rewrite !numbered_app, !along_app. cbn [Nat.add].
  assert (EL : forall k c aux, along k [(c, aux)] = map (fun x => (x, Some k)) aux) by (intros; unfold along; cbn; apply app_nil_r). rewrite EL.
  unfold site_coords. reflexivity.
Qed.

(** C123: so when all dimensions of the data are described, the sites are the last, and every coordinate of the sites has one value for each. *)
Theorem C123_sites data name a la lo w unique key scalars auxiliary methods attributes additional additional_aux l u s front sites :
  further additional additional_aux l -> unique_of unique key u -> shape_of data = front ++ [sites] ->
  length front = length (optional "neighbour_selection_method" "neighbour_selection_method_name" methods) + length (optional "grid_attributes" "grid_attributes_key" attributes) + length l ->
  build data name a la lo w unique key scalars auxiliary methods attributes additional additional_aux = Ok s ->
  s_shape s = front ++ [sites] /\ In (co "spot_index" sites, length front) (s_dims s) /\
  (forall c, In c (site_coords a la lo w u ++ auxiliary) -> In (c, Some (length front)) (s_aux s) /\ c_len c = sites) /\
  a = sites /\ la = sites /\ lo = sites /\ w = sites /\ (forall k n, u = Some (k, n) -> n = sites) /\
  forall c d, In (c, d) (s_dims s) -> d <> length front -> nth_error front d = Some (c_len c).
Proof.
  intros FU UN SH LF H. pose proof (C123_layout data name a la lo w unique key scalars auxiliary methods attributes additional additional_aux l u s front sites FU UN SH) as T. cbv zeta in T. apply (proj1 T) in H as [(F1 & F2 & F3 & F4) ->]. clear T.
  cbn [s_shape s_dims s_aux]. set (cs := site_coords a la lo w u ++ auxiliary) in *. rewrite SH in *.
  assert (ND : numbered 0 (described methods attributes l sites cs) = numbered 0 (optional "neighbour_selection_method" "neighbour_selection_method_name" methods ++ optional "grid_attributes" "grid_attributes_key" attributes ++ l) ++ [(co "spot_index" sites, length front)]).
  { unfold described. rewrite !app_assoc, numbered_app. f_equal. rewrite LF, !app_length. reflexivity. }
  assert (AL : along 0 (described methods attributes l sites cs) = along 0 (optional "neighbour_selection_method" "neighbour_selection_method_name" methods ++ optional "grid_attributes" "grid_attributes_key" attributes ++ l) ++ map (fun x => (x, Some (length front))) cs).
  { unfold described. rewrite !app_assoc, along_app. f_equal. unfold along at 1. cbn. rewrite app_nil_r. rewrite LF, !app_length. reflexivity. }
  rewrite ND, AL in *. assert (LAST : nth_error (front ++ [sites]) (length front) = Some sites) by (rewrite nth_error_app2, Nat.sub_diag by lia; reflexivity).
  assert (CS : forall c, In c cs -> In (c, Some (length front)) (map (fun c0 => (c0, None)) scalars ++ along 0 (optional "neighbour_selection_method" "neighbour_selection_method_name" methods ++ optional "grid_attributes" "grid_attributes_key" attributes ++ l) ++ map (fun x => (x, Some (length front))) cs) /\ c_len c = sites).
  { intros c Hc. assert (X : In (c, Some (length front)) (map (fun c0 => (c0, None)) scalars ++ along 0 (optional "neighbour_selection_method" "neighbour_selection_method_name" methods ++ optional "grid_attributes" "grid_attributes_key" attributes ++ l) ++ map (fun x => (x, Some (length front))) cs)).
    { apply in_or_app. right. apply in_or_app. right. apply in_map_iff. exists c. split; [reflexivity|exact Hc]. }
    split; [exact X|]. apply F4 in X. congruence. }
  split; [reflexivity|]. split; [apply in_or_app; right; now left|]. split; [exact CS|].
  assert (IN : forall c, In c (site_coords a la lo w u) -> c_len c = sites) by (intros c Hc; apply (CS c); apply in_or_app; now left).
  split; [apply (IN (co "altitude" a)); cbn; tauto|]. split; [apply (IN (co "latitude" la)); cbn; tauto|]. split; [apply (IN (co "longitude" lo)); cbn; tauto|]. split; [apply (IN (co "wmo_id" w)); cbn; tauto|].
  split; [intros k n ->; apply (IN (co k n)); apply in_or_app; right; now left|].
  intros c d Hd NE. pose proof (F2 c d Hd) as X. assert (d < length (front ++ [sites])) by (apply nth_error_Some; rewrite X; discriminate). rewrite app_length in H. cbn in H. rewrite nth_error_app1 in X by lia. exact X.
Qed.

(** C123: unique identifiers without a name for their coordinate, and data without dimensions, are refused. *)
Theorem C123_refused data name a la lo w n scalars auxiliary methods attributes additional additional_aux :
  build data name a la lo w (Some n) None scalars auxiliary methods attributes additional additional_aux = Err ValueError /\
  build data name a la lo w (Some n) (Some ""%string) scalars auxiliary methods attributes additional additional_aux = Err ValueError /\
  build (Shaped []) name a la lo w None None scalars auxiliary methods attributes additional additional_aux = Err IndexError.
Proof. repeat split. Qed.

(** Lists of different lengths: zip drops the second dimension with all its coordinates, and the sites are attached to its place, if the lengths happen to agree; data with a dimension that is not described, likewise. *)
Theorem C123_sites_refuted :
  (exists s, build (Shaped [3; 2; 2]) "x" 2 2 2 2 None None [] [] None None (Some [co "percentile" 3; co "time" 2]) (Some [[]]) = Ok s /\ s_dims s = [(co "percentile" 3, 0); (co "spot_index" 2, 1)]) /\
  (exists s, build (Shaped [2; 2]) "x" 2 2 2 2 None None [] [] None None None None = Ok s /\ s_dims s = [(co "spot_index" 2, 0)]).
Proof. split; (eexists; split; [vm_compute; reflexivity|reflexivity]). Qed.

Example C123_case :
  (exists s, build (Shaped [2; 3; 5; 4]) "grid_neighbours" 4 4 4 4 (Some 4) (Some "met_office_site_id"%string) [co "time" 1] [co "zone" 4] (Some 2) (Some 3) (Some [co "percentile" 5]) (Some [[co "label" 5]]) = Ok s /\
     map (fun p => (c_name (fst p), snd p)) (s_dims s) = [("neighbour_selection_method", 0); ("grid_attributes", 1); ("percentile", 2); ("spot_index", 3)]%string /\
     In (co "label" 5, Some 2) (s_aux s) /\ In (co "met_office_site_id" 4, Some 3) (s_aux s)) /\
  (exists s, build Scalar "x" 1 1 1 1 None None [] [] None None None None = Ok s /\ s_shape s = [1]) /\
  build (Shaped [3]) "x" 3 3 2 3 None None [] [] None None None None = Err ValueError.
Proof.
  split; [|split; [|reflexivity]].
  - eexists. split; [vm_compute; reflexivity|]. split; [reflexivity|]. split; vm_compute; tauto.
  - eexists. split; [vm_compute; reflexivity|reflexivity].
Qed.

Print Assumptions C123_layout.
Print Assumptions C123_sites.
Print Assumptions C123_refused.
Print Assumptions C123_sites_refuted.
