(** C129: generated metadata cubes: exactly the dimensions, points, times and attributes that are asked for. *)
From Coq Require Import Sorted.
From Verif Require Import Base Model_Probability Model_Manip Props_Merge Model_Attributes Props_Attributes Props_NowcastAcc Proofs_Nbhood Model_Synthetic.
Local Open Scope string_scope.
Local Open Scope list_scope.
Local Open Scope Q_scope.

(** ** Points of coordinates *)
Definition strict (l : list Q) : Prop := qssorted l \/ qssorted (rev l).
Lemma dim_coord_iff c c' : dim_coord c = Ok c' <-> c' = c /\ strict (c_points c).
Proof.
  unfold dim_coord, strict. destruct (increasing_b (c_points c)) eqn:A; cbn [orb].
  - apply increasing_b_iff in A. split; [intro H; injection H as <-; auto|intros (-> & _); reflexivity].
  - destruct (increasing_b (rev (c_points c))) eqn:B.
    + apply increasing_b_iff in B. split; [intro H; injection H as <-; auto|intros (-> & _); reflexivity].
    + split; [discriminate|]. intros (_ & [X|X]); apply increasing_b_iff in X; congruence.
Qed.
Lemma dim_coord_err c e : dim_coord c = Err e -> e = ValueError.
Proof. unfold dim_coord. destruct (_ || _)%bool; [discriminate|]. congruence. Qed.
Lemma line_length n s d : length (line_points n s d) = n.
Proof. unfold line_points. now rewrite map_length, seq_length. Qed.
(** The points start at the corner and are the spacing apart. *)
Lemma line_nth n s d i : (i < n)%nat -> nth i (line_points n s d) 0 == s + Qn i * d.
Proof.
  intro L. unfold line_points. rewrite nth_map_seq by exact L.
  destruct n as [|[|n]]; [lia| |].
  - assert (i = 0)%nat by lia. subst i. change (Qn 0) with 0. ring.
  - assert (P : 0 < Qn (S (S n)) - 1) by (rewrite Qn_S; pose proof (Qn_nonneg n); rewrite Qn_S; lra). setoid_replace (s + d * (Qn (S (S n)) - 1) - s) with (d * (Qn (S (S n)) - 1)) by ring. field. lra.
Qed.
Lemma nth_rev_q l i : (i < length l)%nat -> nth i (rev l) 0 = nth (length l - S i) l 0.
Proof. intro. now apply rev_nth. Qed.
Lemma line_strict n s d : strict (line_points n s d) <-> (n <= 1)%nat \/ ~ d == 0.
Proof.
  split.
  - intros H. destruct (le_lt_dec n 1) as [L|L]; [now left|right]. intro Z0. pose proof (line_nth n s d 0 ltac:(lia)) as P0. pose proof (line_nth n s d 1 L) as P1. destruct H as [H|H].
    + pose proof (qssorted_nth _ 0 0 1 H ltac:(rewrite line_length; lia)) as X. rewrite P0, P1, Z0 in X. change (Qn 0) with 0 in X. lra.
    + pose proof (qssorted_nth _ 0 (n - 2) (n - 1) H ltac:(rewrite rev_length, line_length; lia)) as X. rewrite !nth_rev_q, line_length in X by (rewrite line_length; lia). replace (n - S (n - 2))%nat with 1%nat in X by lia. replace (n - S (n - 1))%nat with 0%nat in X by lia. rewrite P0, P1, Z0 in X. change (Qn 0) with 0 in X. lra.
  - intros [L|D].
    + left. pose proof (line_length n s d) as E. destruct (line_points n s d) as [|a [|b r]]; [constructor|constructor; constructor|cbn in E; lia].
    + destruct (Qlt_le_dec 0 d) as [P|N].
      * left. apply (qssorted_of_adj _ 0). rewrite line_length. intros i L. rewrite !line_nth by lia. rewrite Qn_S. nra.
      * right. apply (qssorted_of_adj _ 0). rewrite rev_length, line_length. intros i L. rewrite !nth_rev_q, line_length by (rewrite line_length; lia). rewrite !line_nth by lia. replace (n - S i)%nat with (S (n - S (S i))) by lia. rewrite Qn_S. assert (d < 0) by (destruct (Qlt_le_dec d 0); [assumption|exfalso; apply D; lra]). nra.
Qed.
Lemma seq_strict n : strict (map Qn (seq 0 n)).
Proof. left. apply ss_map_seq. intros a b [_ L] _. now apply Qn_lt. Qed.
Lemma axis_iff n s d name units c : axis n s d name units = Ok c <->
  c = {| c_name := name; c_units := units; c_points := line_points n s d; c_bounds := if (1 <? n)%nat then guess_bounds name (line_points n s d) else []; c_var := None; c_attrs := [] |} /\ ((n <= 1)%nat \/ ~ d == 0).
Proof.
  unfold axis. cbv zeta. rewrite <- (line_strict n s d). destruct (dim_coord _) as [k|e] eqn:E; cbn [bind].
  - apply dim_coord_iff in E as (-> & S0). cbn [c_points] in S0. split; [intro H; injection H as <-; split; [now destruct (1 <? n)%nat|exact S0]|]. intros (-> & _). now destruct (1 <? n)%nat.
  - split; [discriminate|]. intros (_ & S0). pose proof (proj2 (dim_coord_iff {| c_name := name; c_units := units; c_points := line_points n s d; c_bounds := []; c_var := None; c_attrs := [] |} _) (conj eq_refl S0)) as X. rewrite X in E. discriminate.
Qed.

(** ** Times *)
Definition times_ok (time : Z) (bounds : option (list Z)) (frt blend : option Z) (t : times) : Prop :=
  exists reference, (frt = Some reference \/ frt = None /\ blend = Some reference) /\ (forall b, blend = Some b -> b = reference) /\ (reference <= time)%Z /\
    t_time t = time /\ t_frt t = frt /\ t_blend t = blend /\ t_period t = (time - reference)%Z /\
    match bounds with
    | None => t_bounds t = None /\ t_period_bounds t = None
    | Some l => exists a b r, l = a :: b :: r /\ (Z.min a b <= time <= Z.max a b)%Z /\ t_bounds t = Some (Z.min a b, Z.max a b) /\ t_period_bounds t = Some (Z.min a b - reference, Z.max a b - reference)%Z
    end.
Lemma times_iff time bounds frt blend t : scalar_times time bounds frt blend = Ok t <-> times_ok time bounds frt blend t.
Proof.
  unfold scalar_times, times_ok. split.
  - intro H. assert (R : exists reference, (frt = Some reference \/ frt = None /\ blend = Some reference) /\ (forall b, blend = Some b -> b = reference) /\
      (if (time <? reference)%Z then Err ValueError else
        let* bs := match bounds with None => Ok None | Some (a :: b :: _) => if ((time <? Z.min a b) || (Z.max a b <? time))%Z%bool then Err ValueError else Ok (Some (Z.min a b, Z.max a b)) | Some _ => Err IndexError end in
        Ok {| t_time := time; t_bounds := bs; t_frt := frt; t_blend := blend; t_period := (time - reference)%Z; t_period_bounds := option_map (fun b => (fst b - reference, snd b - reference)%Z) bs |}) = Ok t).
    { destruct frt as [f|], blend as [b|]; cbn [bind] in H; [destruct (Z.eqb_spec b f) as [->|]; cbn [bind] in H; [|discriminate]| | |discriminate]; eexists; (split; [|split; [|exact H]]); auto; intros ? E; try discriminate E; now injection E. }
    destruct R as (ref & R1 & R2 & E). exists ref. split; [exact R1|]. split; [exact R2|]. clear H. destruct (Z.ltb_spec time ref) as [|L]; [discriminate|]. split; [exact L|]. destruct bounds as [l|]; [|cbn [bind] in E; injection E as <-; cbn; auto 10].
    destruct l as [|a [|b r]]; cbn [bind] in E; try discriminate. destruct (Z.ltb_spec time (Z.min a b)); cbn [orb bind] in E; [discriminate|]. destruct (Z.ltb_spec (Z.max a b) time); cbn [orb bind] in E; [discriminate|]. injection E as <-. cbn [t_time t_frt t_blend t_period t_bounds t_period_bounds option_map fst snd]. do 4 (split; [reflexivity|]). exists a, b, r. auto 10.
  - intros (ref & R1 & R2 & L & T1 & T2 & T3 & T4 & B). destruct t as [tt_ tb tf tbl tp tpb]. cbn in *. subst tt_ tf tbl tp.
    assert (K : (let* _ := match blend, frt with Some b, Some f => if Z.eqb b f then Ok tt else Err ValueError | _, _ => Ok tt end in Ok tt) = Ok tt).
    { destruct blend as [b|]; [|reflexivity]. destruct frt as [f|]; [|reflexivity]. destruct R1 as [R1|[R1 _]]; [|discriminate]. injection R1 as ->. rewrite (R2 b eq_refl), Z.eqb_refl. reflexivity. }
    destruct (match blend, frt with Some b, Some f => if Z.eqb b f then Ok tt else Err ValueError | _, _ => Ok tt end) as [[]|]; cbn [bind] in K |- *; [|discriminate].
    replace (match frt, blend with Some f, _ => Ok f | None, Some b => Ok b | None, None => Err ValueError end) with (@Ok Z ref) by (destruct R1 as [-> |[-> ->]]; reflexivity). cbn [bind].
    destruct (Z.ltb_spec time ref); [lia|]. destruct bounds as [l|]; [|destruct B as (-> & ->); reflexivity]. destruct B as (a & b & r & -> & (L1 & L2) & -> & ->). destruct (Z.ltb_spec time (Z.min a b)); [lia|]. destruct (Z.ltb_spec (Z.max a b) time); [lia|]. reflexivity.
Qed.

(** ** Dimensions *)
Definition plain (name units : string) (pts : list Q) (attrs : attributes) : coord := {| c_name := name; c_units := units; c_points := pts; c_bounds := []; c_var := None; c_attrs := attrs |}.
(** The leading coordinate that is asked for: the points given or numbers from 0. *)
Definition lead_points (members : nat) (leading : option (list Q)) : list Q := match leading with Some l => l | None => map Qn (seq 0 members) end.
Definition lead_dims (name units : string) (members : nat) (leading : option (list Q)) : list coord := if (1 <? length (lead_points members leading))%nat then [plain name units (lead_points members leading) []] else [].
Definition level_dims (heights : option (list Q)) (pressure : bool) : list coord :=
  match heights with Some h => [if pressure then plain "pressure" "Pa" h [("positive", "down")] else plain "height" "m" h [("positive", "up")]] | None => [] end.
Lemma lead_length members leading : length (lead_points members leading) = match leading with Some l => length l | None => members end.
Proof. destruct leading; [reflexivity|]. cbn. now rewrite map_length, seq_length. Qed.
Lemma dimension_iff pts n name units attrs c : dimension pts n name units attrs = Ok c <-> (forall l, pts = Some l -> length l = n) /\ strict (lead_points n pts) /\ c = plain name units (lead_points n pts) attrs.
Proof.
  unfold dimension. destruct pts as [l|]; cbn [lead_points].
  - destruct (Nat.eqb_spec (length l) n) as [E|E]; cbn [bind]; [|split; [discriminate|intros (X & _); exfalso; apply E; now apply X]]. rewrite dim_coord_iff. cbn [c_points]. split; [intros (-> & S0); split; [intros ? X; injection X as <-; exact E|split; [exact S0|reflexivity]]|intros (_ & S0 & ->); auto].
  - cbn [bind]. rewrite dim_coord_iff. cbn [c_points]. split; [intros (-> & S0); split; [discriminate|split; [exact S0|reflexivity]]|intros (_ & S0 & ->); auto].
Qed.
Definition sizes_ok (members : nat) (leading heights : option (list Q)) : Prop :=
  ((1 < length (lead_points members leading))%nat -> strict (lead_points members leading)) /\ (forall h, heights = Some h -> strict h) /\ (heights <> None -> leading <> None -> (1 < length (lead_points members leading))%nat).
Lemma dims_iff members leading n heights pressure y x dims : dimension_coords (data_shape members leading n heights) y x leading heights pressure = Ok dims <->
  sizes_ok members leading heights /\ dims = lead_dims "realization" "1" members leading ++ level_dims heights pressure ++ [y; x].
Proof.
  unfold dimension_coords, data_shape, sizes_ok, lead_dims. rewrite <- lead_length. set (N := length (lead_points members leading)).
  assert (LN : forall l, leading = Some l -> length l = N) by (intros l ->; reflexivity).
  assert (LP : lead_points N leading = lead_points members leading). { unfold N. destruct leading; [reflexivity|]. cbn [lead_points]. now rewrite map_length, seq_length. }
  destruct (Nat.ltb_spec 1 N) as [G|G], heights as [h|]; cbn [app length is_given negb andb orb Nat.leb Nat.ltb Nat.eqb nth]; rewrite ?andb_false_r, ?andb_true_r; cbn [andb].
  - destruct (dimension leading N "realization" "1" []) as [k|e] eqn:E; cbn [bind app length nth].
    + apply dimension_iff in E as (_ & S1 & ->). rewrite LP in S1 |- *. destruct (dimension (Some h) (length h) (if pressure then "pressure" else "height") (if pressure then "Pa" else "m") [("positive", if pressure then "down" else "up")]) as [k'|e] eqn:E'; cbn [bind].
      * apply dimension_iff in E' as (_ & S2 & ->). cbn [lead_points] in S2 |- *. split; [intro H; injection H as <-; split; [split; [auto|split; [intros ? X; injection X as <-; exact S2|auto]]|cbn [level_dims app]; now destruct pressure]|intros (_ & ->); cbn [level_dims app]; now destruct pressure].
      * split; [discriminate|]. intros ((_ & S2 & _) & _). exfalso. pose proof (proj2 (dimension_iff (Some h) (length h) (if pressure then "pressure" else "height") (if pressure then "Pa" else "m") [("positive", if pressure then "down" else "up")] _) (conj (fun l X => f_equal (@length Q) (eq_sym (f_equal (fun o => match o with Some v => v | None => [] end) X))) (conj (S2 h eq_refl) eq_refl))) as X. rewrite X in E'. discriminate.
    + split; [discriminate|]. intros ((S1 & _) & _). exfalso. pose proof (proj2 (dimension_iff leading N "realization" "1" [] _) (conj LN (conj (eq_ind_r strict (S1 G) LP) eq_refl))) as X. rewrite X in E. discriminate.
  - destruct (dimension leading N "realization" "1" []) as [k|e] eqn:E; cbn [bind app length nth].
    + apply dimension_iff in E as (_ & S1 & ->). rewrite LP in S1 |- *. split; [intro H; injection H as <-; split; [split; [auto|split; [discriminate|congruence]]|reflexivity]|intros (_ & ->); reflexivity].
    + split; [discriminate|]. intros ((S1 & _) & _). exfalso. pose proof (proj2 (dimension_iff leading N "realization" "1" [] _) (conj LN (conj (eq_ind_r strict (S1 G) LP) eq_refl))) as X. rewrite X in E. discriminate.
  - destruct leading as [l|]; cbn [is_given].
    + split; [discriminate|]. intros ((_ & _ & S3) & _). exfalso. specialize (S3 ltac:(discriminate) ltac:(discriminate)). lia.
    + cbn [bind length app nth]. destruct (dimension (Some h) (length h) (if pressure then "pressure" else "height") (if pressure then "Pa" else "m") [("positive", if pressure then "down" else "up")]) as [k'|e] eqn:E'; cbn [bind].
      * apply dimension_iff in E' as (_ & S2 & ->). cbn [lead_points] in S2 |- *. split; [intro H; injection H as <-; split; [split; [lia|split; [intros ? X; injection X as <-; exact S2|congruence]]|cbn [level_dims app]; now destruct pressure]|intros (_ & ->); cbn [level_dims app]; now destruct pressure].
      * split; [discriminate|]. intros ((_ & S2 & _) & _). exfalso. pose proof (proj2 (dimension_iff (Some h) (length h) (if pressure then "pressure" else "height") (if pressure then "Pa" else "m") [("positive", if pressure then "down" else "up")] _) (conj (fun l X => f_equal (@length Q) (eq_sym (f_equal (fun o => match o with Some v => v | None => [] end) X))) (conj (S2 h eq_refl) eq_refl))) as X. rewrite X in E'. discriminate.
  - cbn [bind app]. split; [intro H; injection H as <-; split; [split; [lia|split; [discriminate|congruence]]|reflexivity]|intros (_ & ->); reflexivity].
Qed.

(** ** What is asked for *)
Section Request.
Variable standard_grids : string -> option attributes.
Variable std_units : string -> option string.
Variables (mandatory : attributes) (name : string) (units : option string) (time_period : option Z) (members : nat) (leading : option (list Q)) (type spp : string) (npoints : nat) (o : options).
Definition grid : string := match o_grid o with Some g => g | None => "latlon" end.
Definition spacing (given : option Q) : Q := match given with Some d => d | None => if String.eqb grid "latlon" then 2 # 100 else 2000 end.
Definition time : Z := match o_time o with Some t => t | None => 1510286400%Z end.
Definition bounds : option (list Z) := match time_period with Some m => Some [(time - 60 * m)%Z; time] | None => o_bounds o end.
Definition frt : option Z := match o_frt o, o_blend o with None, None => Some 1510272000%Z | f, _ => f end.
Definition x_name : string := if String.eqb grid "latlon" then "longitude" else "projection_x_coordinate".
Definition y_name : string := if String.eqb grid "latlon" then "latitude" else "projection_y_coordinate".
Definition start_y : Q := match o_corner o with Some (a :: _) => a | _ => 0 - ((Qn npoints - 1) * spacing (o_dy o)) / 2 end.
Definition start_x : Q := match o_corner o with Some (_ :: b :: _) => b | _ => 0 - ((Qn npoints - 1) * spacing (o_dx o)) / 2 end.
Definition axis_of (which : string) (start step : Q) : coord := {| c_name := which; c_units := if String.eqb grid "latlon" then "degrees" else "metres"; c_points := line_points npoints start step; c_bounds := if (1 <? npoints)%nat then guess_bounds which (line_points npoints start step) else []; c_var := None; c_attrs := [] |}.
(** When the request can be met. *)
Definition acceptable : Prop :=
  In type ["variable"; "percentile"; "probability"] /\ (grid = "latlon" \/ grid = "equalarea") /\ (forall l, o_corner o = Some l -> length l = 2%nat) /\
  (units <> None \/ std_units name <> None) /\ (forall k, In k ["title"; "source"; "institution"] -> get k mandatory <> None) /\
  ((npoints <= 1)%nat \/ ~ spacing (o_dx o) == 0 /\ ~ spacing (o_dy o) == 0) /\ sizes_ok members leading (o_heights o) /\
  (type <> "variable" -> leading <> None /\ (1 < length (lead_points members leading))%nat) /\
  (type = "probability" -> side spp <> None) /\ (exists t, times_ok time bounds frt (o_blend o) t) /\ (forall g, o_standard_grid o = Some g -> standard_grids g <> None).

Definition options' : options := {| o_grid := Some grid; o_dx := Some (spacing (o_dx o)); o_dy := Some (spacing (o_dy o)); o_corner := o_corner o; o_heights := o_heights o; o_pressure := o_pressure o; o_time := Some time; o_bounds := bounds; o_frt := o_frt o; o_blend := o_blend o; o_attrs := Some (update (match o_attrs o with Some a => a | None => [] end) mandatory); o_standard_grid := o_standard_grid o |}.
Definition base_dims : list coord := level_dims (o_heights o) (o_pressure o) ++ [axis_of y_name start_y (spacing (o_dy o)); axis_of x_name start_x (spacing (o_dx o))].
Definition grid_attrs : attributes := match o_standard_grid o with Some g => match standard_grids g with Some a => update [] a | None => [] end | None => [] end.
Definition made (n u : string) (dims : list coord) (t : times) : mcube :=
  {| m_name := n; m_units := u; m_attrs := update grid_attrs (update (match o_attrs o with Some a => a | None => [] end) mandatory); m_dims := dims; m_scalars := []; m_times := t; m_data := fun _ => 0 |}.

Lemma rev_shape : rev (data_shape members leading npoints (o_heights o)) = npoints :: npoints :: rev ((if (1 <? match leading with Some l => length l | None => members end)%nat then [match leading with Some l => length l | None => members end] else []) ++ match o_heights o with Some h => [length h] | None => [] end).
Proof. unfold data_shape. rewrite app_assoc, rev_app_distr. reflexivity. Qed.
Lemma variable_iff n u c : (forall l, o_corner o = Some l -> length l = 2%nat) -> (grid = "latlon" \/ grid = "equalarea") ->
  (variable_cube standard_grids (data_shape members leading npoints (o_heights o)) (fun _ => 0) n u leading options' = Ok c <->
   ((npoints <= 1)%nat \/ ~ spacing (o_dx o) == 0 /\ ~ spacing (o_dy o) == 0) /\ sizes_ok members leading (o_heights o) /\ (forall g, o_standard_grid o = Some g -> standard_grids g <> None) /\
   exists t, times_ok time bounds frt (o_blend o) t /\ c = made n u (lead_dims "realization" "1" members leading ++ base_dims) t).
Proof.
  intros Cn Gr. unfold variable_cube. rewrite rev_shape. cbn [o_corner o_grid o_dx o_dy o_heights o_pressure o_frt o_blend o_time o_bounds o_standard_grid o_attrs options'].
  assert (Yx : forall k, (let* corner := corner_of (o_corner o) in yx_coords npoints npoints grid (Some (spacing (o_dx o))) (Some (spacing (o_dy o))) corner) = Ok k <->
     ((npoints <= 1)%nat \/ ~ spacing (o_dx o) == 0 /\ ~ spacing (o_dy o) == 0) /\ k = (axis_of y_name start_y (spacing (o_dy o)), axis_of x_name start_x (spacing (o_dx o)))).
  { intro k. assert (G : exists cn, corner_of (o_corner o) = Ok cn /\ match cn with Some c0 => c0 | None => (centred npoints (spacing (o_dy o)), centred npoints (spacing (o_dx o))) end = (start_y, start_x)).
    { unfold start_y, start_x, corner_of. destruct (o_corner o) as [l|]; [|eexists; split; [reflexivity|reflexivity]]. specialize (Cn l eq_refl). destruct l as [|a [|b [|? ?]]]; try discriminate Cn. eexists. split; reflexivity. }
    destruct G as (cn & -> & E). cbn [bind]. unfold yx_coords. assert (D : exists d, grid_default grid = Some (x_name, y_name, if String.eqb grid "latlon" then "degrees" else "metres", d)).
    { unfold grid_default, x_name, y_name. destruct Gr as [-> | ->]; eexists; reflexivity. }
    destruct D as (d & ->). rewrite E. destruct (axis npoints start_y _ y_name _) as [y|e] eqn:Ey; cbn [bind].
    - apply axis_iff in Ey as (-> & Dy). destruct (axis npoints start_x _ x_name _) as [x|e] eqn:Ex; cbn [bind].
      + apply axis_iff in Ex as (-> & Dx). split; [intro H; apply Ok_inj in H; subst k; split; [tauto|reflexivity]|intros (_ & ->); reflexivity].
      + split; [discriminate|]. intros (K & _). exfalso. assert (K' : (npoints <= 1)%nat \/ ~ spacing (o_dx o) == 0) by tauto. pose proof (proj2 (axis_iff npoints start_x (spacing (o_dx o)) x_name (if String.eqb grid "latlon" then "degrees" else "metres") _) (conj eq_refl K')) as X. rewrite X in Ex. discriminate.
    - split; [discriminate|]. intros (K & _). exfalso. assert (K' : (npoints <= 1)%nat \/ ~ spacing (o_dy o) == 0) by tauto. pose proof (proj2 (axis_iff npoints start_y (spacing (o_dy o)) y_name (if String.eqb grid "latlon" then "degrees" else "metres") _) (conj eq_refl K')) as X. rewrite X in Ey. discriminate. }
  destruct (corner_of (o_corner o)) as [corner|e] eqn:Ec; cbn [bind] in Yx |- *.
  2:{ exfalso. unfold corner_of in Ec. destruct (o_corner o) as [l|]; [|discriminate]. specialize (Cn l eq_refl). destruct l as [|a [|b [|? ?]]]; discriminate. }
  destruct (yx_coords npoints npoints grid _ _ corner) as [[y x]|e]; cbn [bind].
  2:{ split; [discriminate|]. intros (K & _). exfalso. pose proof (proj2 (Yx _) (conj K eq_refl)) as X. discriminate. }
  destruct (proj1 (Yx _) eq_refl) as (K & E). injection E as -> ->. clear Yx.
  destruct (dimension_coords _ _ _ leading (o_heights o) (o_pressure o)) as [dims|e] eqn:Ed; cbn [bind].
  2:{ split; [discriminate|]. intros (_ & S0 & _). exfalso. pose proof (proj2 (dims_iff members leading npoints (o_heights o) (o_pressure o) (axis_of y_name start_y (spacing (o_dy o))) (axis_of x_name start_x (spacing (o_dx o))) _) (conj S0 eq_refl)) as X. rewrite X in Ed. discriminate. }
  apply dims_iff in Ed as (S0 & ->). fold base_dims. change (match o_frt o, o_blend o with None, None => Some default_frt | f, _ => f end) with frt.
  destruct (scalar_times time bounds frt (o_blend o)) as [t|e] eqn:Et; cbn [bind].
  2:{ split; [discriminate|]. intros (_ & _ & _ & t & T & _). exfalso. apply times_iff in T. rewrite T in Et. discriminate. }
  pose proof (proj1 (times_iff _ _ _ _ _) Et) as T. destruct (o_standard_grid o) as [g|] eqn:Eg.
  - destruct (standard_grids g) as [a|] eqn:Ea; cbn [bind].
    + split; [intro H; apply Ok_inj in H; subst c; split; [exact K|split; [exact S0|split; [intros g' X; injection X as <-; rewrite Ea; discriminate|exists t; split; [exact T|unfold made, grid_attrs; now rewrite Eg, Ea]]]]|]. intros (_ & _ & _ & t' & T' & ->). apply times_iff in T'. rewrite T' in Et. injection Et as ->. unfold made, grid_attrs. now rewrite Eg, Ea.
    + split; [discriminate|]. intros (_ & _ & X & _). exfalso. exact (X g eq_refl Ea).
  - cbn [bind]. split; [intro H; apply Ok_inj in H; subst c; split; [exact K|split; [exact S0|split; [discriminate|exists t; split; [exact T|unfold made, grid_attrs; now rewrite Eg]]]]|]. intros (_ & _ & _ & t' & T' & ->). apply times_iff in T'. rewrite T' in Et. injection Et as ->. unfold made, grid_attrs. now rewrite Eg.
Qed.

(** The leading dimension of the cube made: realizations, percentiles or thresholds. *)
Definition lead (u : string) : list coord :=
  if (1 <? length (lead_points members leading))%nat then
    [if String.eqb type "percentile" then plain "percentile" "%" (lead_points members leading) [] else
     if String.eqb type "probability" then {| c_name := replace "_in_vicinity" "" name; c_units := u; c_points := lead_points members leading; c_bounds := []; c_var := Some "threshold"; c_attrs := [("spp__relative_to_threshold", spp)] |} else
     plain "realization" "1" (lead_points members leading) []]
  else [].
Definition cube_name : string := if String.eqb type "probability" then ("probability_of_" ++ name ++ "_" ++ match side spp with Some s => s | None => "" end ++ "_threshold")%string else name.
Definition cube_units (u : string) : string := if String.eqb type "probability" then "1" else u.
Definition unit_of (u : string) : Prop := units = Some u \/ units = None /\ std_units name = Some u.
Lemma not_lead dims : m_dims dims = base_dims \/ m_dims dims = [] -> forall f v, converted f v dims = Err CoordinateNotFoundError.
Proof.
  intros D f v. unfold converted. destruct D as [-> | ->]; [|reflexivity]. unfold base_dims, level_dims. destruct (o_heights o); cbn [app c_name]; [destruct (o_pressure o); reflexivity|]. unfold axis_of. cbn [c_name]. unfold y_name. destruct (String.eqb grid "latlon"); reflexivity.
Qed.
Lemma generate_iff c : generate standard_grids std_units mandatory name units time_period members leading type spp npoints o = Ok c <->
  acceptable /\ exists u t, unit_of u /\ times_ok time bounds frt (o_blend o) t /\ c = squeeze (made cube_name (cube_units u) (lead u ++ base_dims) t).
Proof.
  unfold generate.
  assert (Ty : (In type ["variable"; "percentile"; "probability"] /\ exists k, type_of type = Some k) \/ (~ In type ["variable"; "percentile"; "probability"] /\ type_of type = None)).
  { unfold type_of. destruct (String.eqb_spec type "variable") as [->|N1]; [left; split; [now left|eexists; reflexivity]|]. destruct (String.eqb_spec type "percentile") as [->|N2]; [left; split; [right; now left|eexists; reflexivity]|]. destruct (String.eqb_spec type "probability") as [->|N3]; [left; split; [right; right; now left|eexists; reflexivity]|]. right. split; [|reflexivity]. intros [E|[E|[E|[]]]]; congruence. }
  destruct Ty as [(Ty & k & Ek)|(Ty & ->)]; [rewrite Ek|split; [discriminate|intros ((X & _) & _); contradiction]].
  assert (Gr : ((grid = "latlon" \/ grid = "equalarea") /\ match o_grid o with Some g => if (String.eqb g "latlon" || String.eqb g "equalarea")%bool then Ok tt else Err ValueError | None => Ok tt end = Ok tt) \/ (~ (grid = "latlon" \/ grid = "equalarea") /\ match o_grid o with Some g => if (String.eqb g "latlon" || String.eqb g "equalarea")%bool then Ok tt else Err ValueError | None => Ok tt end = Err ValueError)).
  { unfold grid. destruct (o_grid o) as [g|]; [|left; split; [now left|reflexivity]]. destruct (String.eqb_spec g "latlon") as [->|N1]; [left; split; [now left|reflexivity]|]. destruct (String.eqb_spec g "equalarea") as [->|N2]; [left; split; [now right|reflexivity]|]. right. split; [intros [?|?]; contradiction|reflexivity]. }
  destruct Gr as [(Gr & ->)|(Gr & ->)]; cbn [bind]; [|split; [discriminate|intros ((_ & X & _) & _); contradiction]].
  assert (Cn : ((forall l, o_corner o = Some l -> length l = 2%nat) /\ match o_corner o with Some l => if (length l =? 2)%nat then Ok tt else Err ValueError | None => Ok tt end = Ok tt) \/ (~ (forall l, o_corner o = Some l -> length l = 2%nat) /\ match o_corner o with Some l => if (length l =? 2)%nat then Ok tt else Err ValueError | None => Ok tt end = Err ValueError)).
  { destruct (o_corner o) as [l|]; [|left; split; [discriminate|reflexivity]]. destruct (Nat.eqb_spec (length l) 2) as [E|E]; [left; split; [intros ? X; injection X as <-; exact E|reflexivity]|right; split; [intro X; apply E; now apply X|reflexivity]]. }
  destruct Cn as [(Cn & ->)|(Cn & ->)]; cbn [bind]; [|split; [discriminate|intros ((_ & _ & X & _) & _); contradiction]].
  assert (Un : (exists u, unit_of u /\ match units with Some u => Ok u | None => match std_units name with Some u => Ok u | None => Err ValueError end end = Ok u) \/ ((units = None /\ std_units name = None) /\ match units with Some u => Ok u | None => match std_units name with Some u => Ok u | None => Err ValueError end end = Err ValueError)).
  { unfold unit_of. destruct units as [u|]; [left; exists u; auto|]. destruct (std_units name) as [u|]; [left; exists u; auto|]. right. auto. }
  destruct Un as [(u & Un & ->)|((Un & Us) & ->)]; cbn [bind]; [|split; [discriminate|intros ((_ & _ & _ & [X|X] & _) & _); contradiction]].
  assert (Uu : forall u', unit_of u' -> u' = u). { unfold unit_of in *. intros u' H. destruct H as [E|(E & E')], Un as [F|(F & F')]; congruence. }
  assert (Mn : ((forall q, In q ["title"; "source"; "institution"] -> get q mandatory <> None) /\ forallb (fun q => is_given (get q mandatory)) mandatory_names = true) \/ (~ (forall q, In q ["title"; "source"; "institution"] -> get q mandatory <> None) /\ forallb (fun q => is_given (get q mandatory)) mandatory_names = false)).
  { destruct (forallb _ mandatory_names) eqn:E; [left|right]; (split; [|reflexivity]).
    - rewrite forallb_forall in E. intros q Q' N. specialize (E q Q'). rewrite N in E. discriminate.
    - intro X. enough (forallb (fun q => is_given (get q mandatory)) mandatory_names = true) by congruence. apply forallb_forall. intros q Q'. specialize (X q Q'). destruct (get q mandatory); [reflexivity|contradiction]. }
  destruct Mn as [(Mn & ->)|(Mn & ->)]; cbn [bind]; [|split; [discriminate|intros ((_ & _ & _ & _ & X & _) & _); contradiction]].
  change (match o_grid o with Some g => g | None => "latlon" end) with grid. change (match o_time o with Some t => t | None => default_time end) with time. change (match time_period with Some m => Some [(time - 60 * m)%Z; time] | None => o_bounds o end) with bounds.
  assert (O : {| o_grid := Some grid; o_dx := match o_dx o with Some s => Some s | None => Some (spacing_default grid) end; o_dy := match o_dy o with Some s => Some s | None => Some (spacing_default grid) end; o_corner := o_corner o; o_heights := o_heights o; o_pressure := o_pressure o; o_time := Some time; o_bounds := bounds; o_frt := o_frt o; o_blend := o_blend o; o_attrs := Some (update (match o_attrs o with Some a => a | None => [] end) mandatory); o_standard_grid := o_standard_grid o |} = options').
  { unfold options', spacing, spacing_default. destruct (o_dx o), (o_dy o); reflexivity. }
  cbv zeta. rewrite O. clear O.
  assert (V : forall n w r, (let* c0 := (let* c1 := variable_cube standard_grids (data_shape members leading npoints (o_heights o)) (fun _ => 0) n w leading options' in r c1) in Ok (squeeze c0)) = Ok c <->
     exists t c2, (((npoints <= 1)%nat \/ ~ spacing (o_dx o) == 0 /\ ~ spacing (o_dy o) == 0) /\ sizes_ok members leading (o_heights o) /\ (forall g, o_standard_grid o = Some g -> standard_grids g <> None)) /\ times_ok time bounds frt (o_blend o) t /\ r (made n w (lead_dims "realization" "1" members leading ++ base_dims) t) = Ok c2 /\ c = squeeze c2).
  { intros n w r. destruct (variable_cube _ _ _ n w leading options') as [c1|e] eqn:E; cbn [bind].
    - apply (proj1 (variable_iff n w c1 Cn Gr)) in E as (K & S0 & G & t & T & ->). split.
      + intro H. destruct (r _) as [c2|] eqn:Er; cbn [bind] in H; [|discriminate]. apply Ok_inj in H. exists t, c2. auto 10.
      + intros (t' & c2 & _ & T' & Er & ->). apply times_iff in T, T'. rewrite T in T'. injection T' as <-. rewrite Er. reflexivity.
    - split; [discriminate|]. intros (t & c2 & (K & S0 & G) & T & _). exfalso. pose proof (proj2 (variable_iff n w _ Cn Gr) (conj K (conj S0 (conj G (ex_intro _ t (conj T eq_refl)))))) as X. rewrite X in E. discriminate. }
  assert (Acc : forall t, times_ok time bounds frt (o_blend o) t -> ((npoints <= 1)%nat \/ ~ spacing (o_dx o) == 0 /\ ~ spacing (o_dy o) == 0) /\ sizes_ok members leading (o_heights o) /\ (forall g, o_standard_grid o = Some g -> standard_grids g <> None) ->
     (type <> "variable" -> leading <> None /\ (1 < length (lead_points members leading))%nat) -> (type = "probability" -> side spp <> None) -> acceptable).
  { intros t T (K & S0 & G) A1 A2. split; [exact Ty|]. split; [exact Gr|]. split; [exact Cn|]. split; [destruct Un as [Un|(_ & Un)]; rewrite Un; [left|right]; discriminate|]. split; [exact Mn|]. split; [exact K|]. split; [exact S0|]. split; [exact A1|]. split; [exact A2|]. split; [exists t; exact T|exact G]. }
  assert (Conv : forall f t n w c2, converted f leading (made n w (lead_dims "realization" "1" members leading ++ base_dims) t) = Ok c2 <->
     (leading <> None /\ (1 < length (lead_points members leading))%nat) /\ c2 = made n w (f (plain "realization" "1" (lead_points members leading) []) :: base_dims) t).
  { intros f t n w c2. unfold lead_dims. destruct (Nat.ltb_spec 1 (length (lead_points members leading))) as [L|L].
    - unfold converted. cbn [made m_dims app c_name plain]. cbn [String.eqb Ascii.eqb]. change (String.eqb "realization" "realization") with true. cbv iota. destruct leading as [l|]; [|split; [discriminate|intros ((X & _) & _); contradiction]].
      cbn [lead_points] in L |- *. destruct l as [|a [|b r]]; cbn [length] in L; try lia. split; [intro H; apply Ok_inj in H; split; [split; [discriminate|exact L]|now rewrite <- H]|intros (_ & ->); reflexivity].
    - rewrite (not_lead (made n w ([] ++ base_dims) t)) by (left; reflexivity). split; [discriminate|]. intros ((_ & X) & _). lia. }
  unfold type_of in Ek. destruct (String.eqb_spec type "variable") as [Tv|Tv]; [|destruct (String.eqb_spec type "percentile") as [Tp|Tp]; [|destruct (String.eqb_spec type "probability") as [Tq|Tq]; [|discriminate]]]; injection Ek as <-.
  - assert (B : forall x : result mcube, bind x (fun c1 => Ok c1) = x) by (intros [?|?]; reflexivity). rewrite <- (B (variable_cube _ _ _ _ _ _ _)). rewrite V. unfold cube_name, cube_units, lead. rewrite Tv. change (String.eqb "variable" "probability") with false. change (String.eqb "variable" "percentile") with false. cbv iota. split.
    + intros (t & c2 & K & T & E & ->). apply Ok_inj in E. subst c2. split; [apply (Acc t T K); [intro X; now elim X|intro X; rewrite X in Tv; discriminate Tv]|]. exists u, t. auto.
    + intros (A & u' & t & U' & T & ->). apply Uu in U'. subst u'. destruct A as (_ & _ & _ & _ & _ & K & S0 & _ & _ & _ & G). eexists t, _. split; [auto|]. split; [exact T|]. split; reflexivity.
  - unfold percentile_cube. rewrite V. unfold cube_name, cube_units, lead. rewrite Tp. change (String.eqb "percentile" "probability") with false. change (String.eqb "percentile" "percentile") with true. cbv iota. split.
    + intros (t & c2 & K & T & E & ->). apply Conv in E as ((L1 & L2) & ->). split; [apply (Acc t T K); [auto|intro X; rewrite X in Tp; discriminate Tp]|]. exists u, t. apply Nat.ltb_lt in L2. rewrite L2. auto.
    + intros (A & u' & t & U' & T & ->). apply Uu in U'. subst u'. destruct A as (_ & _ & _ & _ & _ & K & S0 & L & _ & _ & G). specialize (L Tv). eexists t, _. split; [auto|]. split; [exact T|]. split; [apply Conv; split; [exact L|reflexivity]|]. destruct L as (_ & L2). apply Nat.ltb_lt in L2. rewrite L2. reflexivity.
  - unfold probability_cube. destruct (side spp) as [sd|] eqn:Es.
    2:{ cbn [bind]. split; [discriminate|]. intros (A & _). exfalso. destruct A as (_ & _ & _ & _ & _ & _ & _ & _ & X & _). exact (X Tq Es). }
    rewrite V. unfold cube_name, cube_units, lead. rewrite Tq, Es. change (String.eqb "probability" "probability") with true. change (String.eqb "probability" "percentile") with false. cbv iota. split.
    + intros (t & c2 & K & T & E & ->). apply Conv in E as ((L1 & L2) & ->). split; [apply (Acc t T K); [auto|intros _; first [discriminate|rewrite Es; discriminate]]|]. exists u, t. apply Nat.ltb_lt in L2. rewrite L2. auto.
    + intros (A & u' & t & U' & T & ->). apply Uu in U'. subst u'. destruct A as (_ & _ & _ & _ & _ & K & S0 & L & _ & _ & G). specialize (L Tv). eexists t, _. split; [auto|]. split; [exact T|]. split; [apply Conv; split; [exact L|reflexivity]|]. destruct L as (_ & L2). apply Nat.ltb_lt in L2. rewrite L2. reflexivity.
Qed.
End Request.

(** ** Theorems *)
(** A cube is made exactly for the requests that can be met. *)
Theorem C129_accepted sg su mandatory name units period members leading type spp n o :
  (exists c, generate sg su mandatory name units period members leading type spp n o = Ok c) <-> acceptable sg su mandatory name units period members leading type spp n o.
Proof.
  split.
  - intros (c & H). apply generate_iff in H as (A & _). exact A.
  - intro A. pose proof A as (_ & _ & _ & U & _ & _ & _ & _ & _ & (t & T) & _). assert (E : exists u, unit_of su name units u) by (unfold unit_of; destruct units as [u|]; [exists u; now left|]; destruct U as [U|U]; [contradiction|]; destruct (su name) as [u|]; [exists u; auto|contradiction]). destruct E as (u & E). eexists. apply generate_iff. split; [exact A|]. exists u, t. auto.
Qed.
(** Its dimensions are, in this order, the leading one, the levels, y and x, of the points asked for; those of one point are scalar coordinates; all values are zero. *)
Theorem C129_cube sg su mandatory name units period members leading type spp n o c : generate sg su mandatory name units period members leading type spp n o = Ok c ->
  exists u t, (units = Some u \/ units = None /\ su name = Some u) /\ times_ok (time o) (bounds period o) (frt o) (o_blend o) t /\ m_times c = t /\ m_name c = cube_name name type spp /\ m_units c = cube_units type u /\
    let all := lead name members leading type spp u ++ level_dims (o_heights o) (o_pressure o) ++ [axis_of n o (y_name o) (start_y n o) (spacing o (o_dy o)); axis_of n o (x_name o) (start_x n o) (spacing o (o_dx o))] in
    m_dims c = filter (fun d => negb (length (c_points d) =? 1)%nat) all /\ m_scalars c = filter (fun d => length (c_points d) =? 1)%nat all /\ forall i, m_data c i = 0.
Proof.
  intro H. apply generate_iff in H as (_ & u & t & U & T & ->). exists u, t. split; [exact U|]. split; [exact T|]. split; [reflexivity|]. split; [reflexivity|]. split; [reflexivity|]. cbv zeta. split; [reflexivity|]. split; [|reflexivity]. cbn [squeeze with_dims m_scalars made m_dims]. now rewrite app_nil_r.
Qed.
(** The forecast period is the time less the reference time and so are its bounds; the time is within its bounds, which for a period of so many minutes are its end and that long before. *)
Theorem C129_times sg su mandatory name units period members leading type spp n o c : generate sg su mandatory name units period members leading type spp n o = Ok c ->
  exists reference, (o_frt o = Some reference \/ o_frt o = None /\ o_blend o = Some reference \/ o_frt o = None /\ o_blend o = None /\ reference = 1510272000%Z) /\
    t_time (m_times c) = time o /\ t_period (m_times c) = (time o - reference)%Z /\ (0 <= t_period (m_times c))%Z /\
    (forall b, o_blend o = Some b -> t_blend (m_times c) = Some reference /\ (o_frt o = None \/ o_frt o = Some b)) /\
    (forall lo hi, t_bounds (m_times c) = Some (lo, hi) -> (lo <= time o <= hi)%Z /\ t_period_bounds (m_times c) = Some (lo - reference, hi - reference)%Z) /\
    (forall m, period = Some m -> (0 <= m)%Z -> t_bounds (m_times c) = Some (time o - 60 * m, time o)%Z).
Proof.
  intro H. apply generate_iff in H as (_ & u & t & U & T & ->). cbn [squeeze with_dims made m_times]. destruct T as (ref & R1 & R2 & L & T1 & T2 & T3 & T4 & B). exists ref. unfold frt in R1, T2.
  split; [destruct (o_frt o) as [f|]; [left; destruct R1 as [R1|[R1 _]]; [exact R1|discriminate]|destruct (o_blend o) as [b|]; [right; left; destruct R1 as [R1|[_ R1]]; [discriminate|auto]|right; right; destruct R1 as [R1|[R1 _]]; [injection R1 as <-; auto|discriminate]]]|].
  split; [exact T1|]. split; [exact T4|]. split; [rewrite T4; lia|]. split; [intros b Eb; rewrite T3, Eb; rewrite (R2 b Eb); split; [reflexivity|]; rewrite Eb in R1; destruct (o_frt o) as [f|]; [right; destruct R1 as [R1|[R1 _]]; [exact R1|discriminate]|now left]|].
  split.
  - intros lo hi E. destruct (bounds period o) as [l|]; [|destruct B as (B & _); congruence]. destruct B as (a & b & r & _ & W & B1 & B2). rewrite E in B1. injection B1 as -> ->. auto.
  - intros m -> M. unfold bounds in B. destruct B as (a & b & r & E & _ & B1 & _). assert (Ea : a = (time o - 60 * m)%Z) by congruence. assert (Eb : b = time o) by congruence. rewrite B1, Ea, Eb. f_equal. f_equal; lia.
Qed.
(** The values of the attributes: those that are mandatory, then those asked for, then those of the standard grid. *)
Theorem C129_attributes sg su mandatory name units period members leading type spp n o c k : generate sg su mandatory name units period members leading type spp n o = Ok c ->
  is_dict mandatory -> (forall a, o_attrs o = Some a -> is_dict a) -> (forall g a, o_standard_grid o = Some g -> sg g = Some a -> is_dict a) ->
  get k (m_attrs c) = match get k mandatory with Some v => Some v | None =>
    match (match o_attrs o with Some a => get k a | None => None end) with Some v => Some v | None =>
    match o_standard_grid o with Some g => match sg g with Some a => get k a | None => None end | None => None end end end.
Proof.
  intros H D1 D2 D3. apply generate_iff in H as (_ & u & t & U & T & ->). cbn [squeeze with_dims made m_attrs].
  assert (Du : forall b a, is_dict a -> is_dict (update a b)). { induction b as [|e b IH]; intros a D; [exact D|]. apply IH. now apply set_dict. }
  assert (Da : is_dict (match o_attrs o with Some a => a | None => [] end)) by (destruct (o_attrs o); [now apply D2|constructor]).
  rewrite update_get by now apply Du. rewrite update_get by exact D1. destruct (get k mandatory); [reflexivity|].
  replace (get k (match o_attrs o with Some a => a | None => [] end)) with (match o_attrs o with Some a => get k a | None => None end) by (destruct (o_attrs o); reflexivity).
  destruct (match o_attrs o with Some a => get k a | None => None end); [reflexivity|]. unfold grid_attrs. destruct (o_standard_grid o) as [g|]; [|reflexivity]. destruct (sg g) as [a|] eqn:E; [|reflexivity]. rewrite update_get by exact (D3 g a eq_refl E). now destruct (get k a).
Qed.
(** The points of y and x: so many, the spacing apart, from the corner or with their middle at zero. *)
Theorem C129_grid n o which start step : length (c_points (axis_of n o which start step)) = n /\ (forall i, (i < n)%nat -> nth i (c_points (axis_of n o which start step)) 0 == start + Qn i * step) /\
  (o_corner o = None -> start_y n o + (start_y n o + (Qn n - 1) * spacing o (o_dy o)) == 0 /\ start_x n o + (start_x n o + (Qn n - 1) * spacing o (o_dx o)) == 0) /\ (forall y x, o_corner o = Some [y; x] -> start_y n o = y /\ start_x n o = x).
Proof.
  split; [apply line_length|]. split; [intros i L; now apply line_nth|]. split.
  - intro E. unfold start_y, start_x. rewrite E. split; field.
  - intros y x E. unfold start_y, start_x. rewrite E. auto.
Qed.
(** The side of a threshold: six names of comparisons, in two groups. *)
Theorem C129_side spp s : side spp = Some s <->
  (s = "above" /\ (spp = "above" \/ spp = "greater_than" \/ spp = "greater_than_or_equal_to") \/ s = "below" /\ (spp = "below" \/ spp = "less_than" \/ spp = "less_than_or_equal_to"))%string.
Proof.
  split.
  - unfold side. cbn [existsb]. repeat match goal with |- context [String.eqb spp ?b] => destruct (String.eqb_spec spp b) end; cbn [orb]; intro H; try discriminate H; injection H as <-; auto 8.
  - intros [[-> [->|[->| ->]]]|[-> [->|[->| ->]]]]; reflexivity.
Qed.

(** The cells of the grid reach half the spacing to each side of the points (latitudes not beyond the poles), and so meet without a gap. *)
Theorem C129_cells n o which start step i : (2 <= n)%nat -> (i < n)%nat ->
  let a := axis_of n o which start step in let p := nth i (c_points a) 0 in let cell := nth i (c_bounds a) (0, 0) in
  length (c_bounds a) = n /\ (which <> "latitude" \/ (exists q, In q (c_points a) /\ ~ (-(90#1) <= q <= 90)) -> fst cell == p - step / 2 /\ snd cell == p + step / 2) /\
  ((fst cell <= p <= snd cell) \/ (snd cell <= p <= fst cell)) /\ ((S i < n)%nat -> snd cell == fst (nth (S i) (c_bounds a) (0, 0))).
Proof.
  intros N L. cbv zeta. unfold axis_of. cbn [c_points c_bounds]. replace (1 <? n)%nat with true by (symmetry; apply Nat.ltb_lt; lia). unfold guess_bounds. cbv zeta. rewrite line_length. set (pts := line_points n start step).
  set (polar := (String.eqb which "latitude" && forallb _ pts)%bool). set (cut := fun x : Q => if polar then clip (-(90#1)) 90 x else x).
  match goal with |- context [map ?f (seq 0 n)] => set (g := f) end.
  assert (G : forall j, (j < n)%nat -> exists l h, g j = (cut l, cut h) /\ l == nth j pts 0 - step / 2 /\ h == nth j pts 0 + step / 2).
  { intros j J. unfold g. cbv beta. eexists. eexists. split; [reflexivity|]. unfold pts. split.
    - destruct j as [|j]; rewrite !line_nth by lia; rewrite ?Qn_S; change (Qn 0) with 0; field.
    - destruct (Nat.ltb_spec (S j) n) as [J'|J'].
      + rewrite !line_nth by lia. rewrite Qn_S. field.
      + destruct j as [|j]; [lia|]. replace (S j - 1)%nat with j by lia. rewrite !line_nth by lia. rewrite Qn_S. field. }
  assert (Cq : forall x y, x == y -> cut x == cut y). { intros x y E. unfold cut. destruct polar; [|exact E]. unfold clip. now rewrite E. }
  assert (Cm : forall x y, x <= y -> cut x <= cut y). { intros x y E. unfold cut. destruct polar; [|exact E]. unfold clip. qmm; lra. }
  assert (Cp : forall j, (j < n)%nat -> cut (nth j pts 0) == nth j pts 0).
  { intros j J. unfold cut. destruct polar eqn:P; [|reflexivity]. unfold polar in P. apply andb_prop in P as (_ & P). rewrite forallb_forall in P. assert (Ij : In (nth j pts 0) pts) by (apply nth_In; unfold pts; now rewrite line_length). specialize (P _ Ij). apply andb_prop in P as (P1 & P2). apply Qleb_le in P1, P2. unfold clip. qmm; lra. }
  split; [now rewrite map_length, seq_length|]. rewrite !nth_map_seq by exact L. destruct (G i L) as (l & h & E & El & Eh). rewrite E. cbn [fst snd]. split; [|split].
  - intro W. assert (Id : forall x, cut x = x).
    { intro x. unfold cut, polar. destruct (String.eqb_spec which "latitude") as [->|]; [|reflexivity]. destruct W as [W|(q & Q' & W)]; [contradiction|]. replace (forallb _ pts) with false; [reflexivity|]. symmetry. destruct (forallb _ pts) eqn:F; [|reflexivity]. exfalso. rewrite forallb_forall in F. specialize (F q Q'). apply andb_prop in F as (F1 & F2). apply Qleb_le in F1, F2. apply W. auto. }
    rewrite !Id. auto.
  - rewrite <- (Cp i L). clear E. destruct (Qlt_le_dec step 0) as [S0|S0]; [right|left]; split; apply Cm; rewrite ?El, ?Eh; generalize (nth i pts 0); intro p0; clear -S0; assert (Hf : step / 2 == (1 # 2) * step) by field; rewrite Hf; lra.
  - intro J. rewrite nth_map_seq by exact J. destruct (G (S i) J) as (l' & h' & E' & El' & _). rewrite E'. cbn [fst]. apply Cq. rewrite Eh, El'. unfold pts. rewrite !line_nth by lia. rewrite Qn_S. field.
Qed.
(** One percentile or threshold cannot be had, although the code has a branch for it; one realization is dropped without a word. *)
Theorem C129_one_refuted sg su mandatory name units period members x type spp n o : type <> "variable" -> forall c, generate sg su mandatory name units period members (Some [x]) type spp n o <> Ok c.
Proof. intros T c H. apply generate_iff in H as (A & _). destruct A as (_ & _ & _ & _ & _ & _ & _ & L & _). destruct (L T) as (_ & L2). cbn in L2. lia. Qed.
Theorem C129_one_realization sg su mandatory name units period members x spp n o c : generate sg su mandatory name units period members (Some [x]) "variable" spp n o = Ok c -> forall d, In d (m_dims c ++ m_scalars c) -> c_name d <> "realization".
Proof.
  intro H. destruct (C129_cube _ _ _ _ _ _ _ _ _ _ _ _ _ H) as (u & t & _ & _ & _ & _ & _ & D & S0 & _). cbv zeta in D, S0. rewrite D, S0. intros d I'. assert (In d (level_dims (o_heights o) (o_pressure o) ++ [axis_of n o (y_name o) (start_y n o) (spacing o (o_dy o)); axis_of n o (x_name o) (start_x n o) (spacing o (o_dx o))])) as J by (cbn [lead lead_points length Nat.ltb Nat.leb app] in I'; apply in_app_iff in I' as [I'|I']; apply filter_In in I' as (I' & _); exact I').
  unfold level_dims in J. apply in_app_iff in J as [J|[<-|[<-|[]]]].
  - destruct (o_heights o); [|destruct J]. destruct J as [<-|[]]. destruct (o_pressure o); discriminate.
  - cbn. unfold y_name. destruct (String.eqb _ "latlon"); discriminate.
  - cbn. unfold x_name. destruct (String.eqb _ "latlon"); discriminate.
Qed.
(** The command makes the cube its JSON input asks for: at most one of realizations, percentiles and thresholds. *)
Theorem C129_command sg su mandatory name units grid_ period input members dx dy corner n c : command sg su mandatory name units grid_ period input members dx dy corner n = Ok c ->
  exists leading type heights pressure, generate sg su mandatory name units period members leading type (match input with Some j => match j_spp j with Some s => s | None => "greater_than" end | None => "greater_than" end) n
     {| o_grid := Some grid_; o_dx := dx; o_dy := dy; o_corner := corner; o_heights := heights; o_pressure := pressure; o_time := match input with Some j => j_time j | None => None end; o_bounds := match input with Some j => j_bounds j | None => None end; o_frt := match input with Some j => j_frt j | None => None end; o_blend := None; o_attrs := match input with Some j => j_attrs j | None => None end; o_standard_grid := None |} = Ok c /\
    match input with
    | Some {| j_coords := Some k |} =>
        (type = "variable" /\ leading = jc_realizations k /\ jc_percentiles k = None /\ jc_thresholds k = None \/ type = "percentile" /\ leading = jc_percentiles k /\ jc_realizations k = None /\ jc_thresholds k = None \/ type = "probability" /\ leading = jc_thresholds k /\ jc_realizations k = None /\ jc_percentiles k = None) /\
        (jc_heights k <> None -> heights = jc_heights k /\ pressure = false) /\ (jc_heights k = None -> heights = jc_pressures k)  /\ (jc_heights k = None -> jc_pressures k <> None -> pressure = true)
    | _ => leading = None /\ type = "variable" /\ heights = None
    end.
Proof.
  unfold command. destruct input as [[[k|] jt jf jb ja js]|]; cbv zeta; cbn [j_coords j_time j_frt j_bounds j_attrs j_spp bind].
  2,3: intro H; exists None, "variable", None, false; split; [exact H|split; [reflexivity|split; reflexivity]].
  unfold leading_dimension, height_levels. destruct k as [r p th h pr]. cbn [jc_realizations jc_percentiles jc_thresholds jc_heights jc_pressures].
  set (res := match r, p, th with Some _, Some _, _ => _ | _, _, _ => _ end).
  assert (R : forall lt, res = Ok lt -> snd lt = "variable" /\ fst lt = r /\ p = None /\ th = None \/ snd lt = "percentile" /\ fst lt = p /\ r = None /\ th = None \/ snd lt = "probability" /\ fst lt = th /\ r = None /\ p = None).
  { intros lt E. unfold res in E. destruct r as [r|], p as [p|], th as [th|]; try discriminate E; apply Ok_inj in E; subst lt; cbn [fst snd]; tauto. }
  destruct res as [[leading type]|e]; cbn [bind]; [|discriminate]. specialize (R _ eq_refl). cbn [fst snd] in R.
  set (hp := match h, pr with Some _, _ => _ | _, _ => _ end).
  assert (Hp : (h <> None -> fst hp = h /\ snd hp = false) /\ (h = None -> fst hp = pr) /\ (h = None -> pr <> None -> snd hp = true)).
  { unfold hp. destruct h as [h|], pr as [pr|]; cbn [fst snd]; repeat split; congruence. }
  destruct hp as [hs ps]. cbn [fst snd] in Hp. intro H. exists leading, type, hs, ps. split; [exact H|]. split; [exact R|exact Hp].
Qed.
Definition case_mandatory : attributes := [("title", "t"); ("source", "IMPROVER"); ("institution", "i")].
Definition case_json : json := {| j_coords := Some {| jc_realizations := None; jc_percentiles := Some [10; 50; 90]; jc_thresholds := None; jc_heights := None; jc_pressures := Some [100000; 85000] |}; j_time := Some 1510290000%Z; j_frt := None; j_bounds := None; j_attrs := Some [("title", "other"); ("a", "b")]; j_spp := None |}.
Example C129_case : match command (fun _ => None) (fun s => if String.eqb s "air_temperature" then Some "K" else None) case_mandatory "air_temperature" None "equalarea" (Some 60%Z) (Some case_json) 8 None (Some 500) (Some [1000; -(2000#1)]) 3 with
  | Ok c => map (fun d => (c_name d, length (c_points d))) (m_dims c) = [("percentile", 3%nat); ("pressure", 2%nat); ("projection_y_coordinate", 3%nat); ("projection_x_coordinate", 3%nat)] /\ m_units c = "K" /\ m_attrs c = [("title", "t"); ("a", "b"); ("source", "IMPROVER"); ("institution", "i")] /\
      m_times c = {| t_time := 1510290000; t_bounds := Some (1510286400, 1510290000)%Z; t_frt := Some 1510272000%Z; t_blend := None; t_period := 18000; t_period_bounds := Some (14400, 18000)%Z |} /\
      map (fun d => map Qred (c_points d)) (m_dims c) = [[10; 50; 90]; [100000; 85000]; [1000; 1500; 2000]; [-(2000#1); 0; 2000]]
  | Err _ => False end.
Proof. vm_compute. repeat split; reflexivity. Qed.

Print Assumptions C129_accepted.
Print Assumptions C129_cube.
Print Assumptions C129_times.
Print Assumptions C129_attributes.
Print Assumptions C129_grid.
Print Assumptions C129_side.
Print Assumptions C129_cells.
Print Assumptions C129_one_refuted.
Print Assumptions C129_one_realization.
Print Assumptions C129_command.
