(** C94: standardising the metadata of a cube. *)
From Verif Require Import Base Model_Percentiles Proofs_ProbPerc Model_Probability Model_Manip Model_Attributes Model_Times Props_Times Model_Standardise.
Local Open Scope Q_scope.

(** * Specification *)
Definition no_options : options := {| op_name := None; op_units := None; op_remove := []; op_modify := []; op_attributes := [] |}.
(** Two cubes that cannot be told apart: the data at all lists of indices, one for each dimension. *)
Definition same (a b : scube) : Prop :=
  cu_name a = cu_name b /\ cu_units a = cu_units b /\ cu_dtype a = cu_dtype b /\ cu_dims a = cu_dims b /\ cu_aux a = cu_aux b /\ cu_flag a = None /\ cu_flag b = None /\ cu_attributes a = cu_attributes b /\ cu_methods a = cu_methods b /\
  forall idx, length idx = length (cu_dims a) -> cu_data a idx = cu_data b idx.
(** A dimension of one point that is not of realizations. *)
Definition single (d : dimension) : Prop := exists c x, snd d = Some c /\ co_points c = [x] /\ contains "realization" (co_name c) = false.

(** * Proofs *)
Lemma Ok_inj' {A} (x y : A) : Ok x = Ok y -> x = y. Proof. congruence. Qed.
Lemma mapM_in {A B} (f : A -> result B) l : forall r, mapM f l = Ok r -> Forall2 (fun x y => f x = Ok y) l r.
Proof.
  induction l as [|x l IH]; intros r H; cbn [mapM] in H; [apply Ok_inj' in H; subst; constructor|]. destruct (f x) as [y|] eqn:E; [|discriminate]. cbn [bind] in H. destruct (mapM f l) as [r'|]; [|discriminate]. cbn [bind] in H. apply Ok_inj' in H. subst r. constructor; [exact E|]. apply IH. reflexivity.
Qed.
Lemma mapM_fixed {A} (f : A -> result A) l : (forall x, In x l -> f x = Ok x) -> mapM f l = Ok l.
Proof. induction l as [|x l IH]; intro H; [reflexivity|]. cbn [mapM]. rewrite (H x (or_introl eq_refl)). cbn [bind]. rewrite IH by (intros y Y; apply H; right; exact Y). reflexivity. Qed.
Lemma Forall2_right {A B} (P : A -> B -> Prop) l r : Forall2 P l r -> forall y, In y r -> exists x, In x l /\ P x y.
Proof. induction 1 as [|x y l r H F IH]; intros z Z0; [destruct Z0|]. destruct Z0 as [<-|Z0]; [exists x; split; [left; reflexivity|exact H]|]. destruct (IH z Z0) as (w & W & P'). exists w. split; [right; exact W|exact P']. Qed.

Lemma near_int z : near_integer (inject_Z z) = true.
Proof. unfold near_integer. rewrite rhe_int. apply Qleb_le. assert (E : inject_Z z - inject_Z z == 0) by ring. rewrite E. change (Qabs 0) with 0. pose proof (Qabs_nonneg (inject_Z z)). lra. Qed.
Lemma round_ints zs : round_close (map inject_Z zs) = Ok zs.
Proof.
  unfold round_close. assert (F : forallb near_integer (map inject_Z zs) = true) by (apply forallb_forall; intros x X; apply in_map_iff in X as (z & <- & _); apply near_int). rewrite F. f_equal. rewrite map_map. rewrite <- (map_id zs) at 2. apply map_ext. intro z. apply rhe_int.
Qed.
Definition castz (r : dtype) (z : Z) : Z := match r with Int32 => int32 z | _ => z end.
Lemma int32_idem z : int32 (int32 z) = int32 z.
Proof.
  unfold int32. pose proof (Z.mod_pos_bound (z + 2147483648) 4294967296 ltac:(lia)). rewrite (Z.mod_small ((z + 2147483648) mod 4294967296 - 2147483648 + 2147483648)) by lia. lia.
Qed.
Lemma castz_idem r z : castz r (castz r z) = castz r z.
Proof. destruct r; cbn; auto using int32_idem. Qed.
Lemma cast_castz r z : cast r (castz r z) = cast r z.
Proof. unfold cast. fold (castz r (castz r z)). rewrite castz_idem. reflexivity. Qed.
Lemma round_cast {A} r (f : A -> Z) l : round_close (map (fun a => cast r (f a)) l) = Ok (map (fun a => castz r (f a)) l).
Proof. change (map (fun a => cast r (f a)) l) with (map (fun a => inject_Z (castz r (f a))) l). rewrite <- (map_map (fun a => castz r (f a)) inject_Z l). apply round_ints. Qed.
Lemma cast_again {A} r (f : A -> Z) l : map (cast r) (map (fun a => castz r (f a)) l) = map (fun a => cast r (f a)) l.
Proof. rewrite map_map. apply map_ext. intro a. apply cast_castz. Qed.
Lemma round_cast0 r l : round_close (map (cast r) l) = Ok (map (castz r) l).
Proof. exact (round_cast r (fun z => z) l). Qed.
Lemma cast_again0 r l : map (cast r) (map (castz r) l) = map (cast r) l.
Proof. exact (cast_again r (fun z => z) l). Qed.
Lemma pairs_again r zs : map (fun q => (cast r (fst q), cast r (snd q))) (combine (map (fun q => castz r (fst q)) zs) (map (fun q => castz r (snd q)) zs)) = map (fun q => (cast r (fst q), cast r (snd q))) zs.
Proof. induction zs as [|[a b] m IH]; [reflexivity|]. cbn [map combine fst snd]. rewrite IH, !cast_castz. reflexivity. Qed.
(** The object of a coordinate after the two steps. *)
Lemma required_idem o d b u : ob_coord o = true -> d = required_dtype o -> required_dtype {| ob_name := ob_name o; ob_coord := true; ob_dtype := d; ob_bounds := b; ob_units := u |} = d.
Proof.
  intros C ->. unfold required_dtype, spec_of. rewrite C. cbn [ob_coord ob_name ob_dtype]. destruct (time_coords (ob_name o)) as [[d w]|]; [reflexivity|]. destruct (is_float (ob_dtype o)) eqn:F; [reflexivity|]. rewrite F. reflexivity.
Qed.
Lemma type_inv x y : required_type x = Ok y -> co_name y = co_name x /\ co_units y = co_units x /\ co_dtype y = required_dtype (coord_object x) /\ co_bdtype y = co_dtype y /\ required_type y = Ok y.
Proof.
  unfold required_type. set (r := required_dtype (coord_object x)). destruct (is_integer r) eqn:I.
  - intro H. destruct (round_close (co_points x)) as [p|] eqn:P; [|discriminate]. cbn [bind] in H.
    destruct (co_bounds x) as [l|] eqn:B.
    + destruct (round_close (map fst l)) as [lo|] eqn:L; [|discriminate]. cbn [bind] in H. destruct (round_close (map snd l)) as [hi|] eqn:U; [|discriminate]. cbn [bind] in H. apply Ok_inj' in H. subst y. cbn [co_name co_units co_dtype co_bdtype]. repeat (split; [reflexivity|]).
      assert (R : required_dtype (coord_object {| co_name := co_name x; co_points := map (cast r) p; co_bounds := Some (map (fun q => (cast r (fst q), cast r (snd q))) (combine lo hi)); co_dtype := r; co_bdtype := r; co_units := co_units x |}) = r) by (unfold coord_object; cbn [co_name co_dtype co_bdtype co_units co_bounds]; apply (required_idem (coord_object x)); reflexivity).
      rewrite R, I. cbn [co_points co_bounds]. rewrite round_cast0. cbn [bind]. rewrite !map_map. cbn [fst snd]. rewrite (round_cast r fst), (round_cast r snd). cbn [bind co_name co_units]. rewrite <- (map_map (castz r) (cast r)), cast_again0, pairs_again. reflexivity.
    + cbn [bind] in H. apply Ok_inj' in H. subst y. cbn [co_name co_units co_dtype co_bdtype]. repeat (split; [reflexivity|]).
      assert (R : required_dtype (coord_object {| co_name := co_name x; co_points := map (cast r) p; co_bounds := None; co_dtype := r; co_bdtype := r; co_units := co_units x |}) = r) by (unfold coord_object; cbn [co_name co_dtype co_bdtype co_units co_bounds]; apply (required_idem (coord_object x)); reflexivity).
      rewrite R, I. cbn [co_points co_bounds]. rewrite round_cast0. cbn [bind co_name co_units]. rewrite cast_again0. reflexivity.
  - intro H. apply Ok_inj' in H. subst y. cbn [co_name co_units co_dtype co_bdtype]. repeat (split; [reflexivity|]).
    assert (R : required_dtype (coord_object {| co_name := co_name x; co_points := co_points x; co_bounds := co_bounds x; co_dtype := r; co_bdtype := r; co_units := co_units x |}) = r) by (unfold coord_object; cbn [co_name co_dtype co_bdtype co_units co_bounds]; apply (required_idem (coord_object x)); reflexivity).
    rewrite R, I. reflexivity.
Qed.
Lemma units_inv x y : required_units x = Ok y -> co_name y = co_name x /\ check_units (coord_object y) = true.
Proof.
  unfold required_units. destruct (time_coords (co_name x)) as [[d w]|] eqn:T.
  - destruct (check_units (coord_object x)) eqn:C; [intro H; apply Ok_inj' in H; subst y; auto|]. destruct (co_units x) as [u|]; [|discriminate]. destruct (mapM (convert_time u w) (co_points x)) as [p|]; [|discriminate]. cbn [bind].
    assert (G : forall b, check_units (coord_object {| co_name := co_name x; co_points := p; co_bounds := b; co_dtype := Float64; co_bdtype := Float64; co_units := Some w |}) = true).
    { intro b. unfold check_units, coord_object, spec_of. cbn [ob_coord ob_name ob_units co_name co_units]. rewrite T. apply units_eqb_iff. unfold same_units. split; [reflexivity|]. destruct (un_epoch w); [reflexivity|exact Logic.I]. }
    destruct (co_bounds x) as [l|]; [|cbn [bind]; intro H; apply Ok_inj' in H; subst y; split; [reflexivity|apply G]].
    destruct (mapM _ (map fst l)); [|discriminate]. cbn [bind]. destruct (mapM _ (map snd l)); [|discriminate]. cbn [bind]. intro H. apply Ok_inj' in H. subst y. split; [reflexivity|apply G].
  - intro H. apply Ok_inj' in H. subst y. split; [reflexivity|]. unfold check_units, coord_object, spec_of. cbn [ob_coord ob_name]. rewrite T. reflexivity.
Qed.
Lemma check_units_same x y : co_name y = co_name x -> co_units y = co_units x -> check_units (coord_object y) = check_units (coord_object x).
Proof. intros N U. unfold check_units, coord_object, spec_of. cbn [ob_coord ob_name ob_units]. rewrite N, U. reflexivity. Qed.
Lemma units_fixed x : check_units (coord_object x) = true -> required_units x = Ok x.
Proof. intro C. unfold required_units. destruct (time_coords (co_name x)) as [[d w]|]; [|reflexivity]. rewrite C. reflexivity. Qed.
Lemma coord_inv x y : standardise_coord x = Ok y -> co_name y = co_name x /\ standard (coord_object y) /\ standardise_coord y = Ok y.
Proof.
  unfold standardise_coord. destruct (required_units x) as [z|] eqn:U; [|discriminate]. cbn [bind]. intro H. destruct (units_inv x z U) as [N C]. destruct (type_inv z y H) as (N' & U' & D & B & F).
  assert (C' : check_units (coord_object y) = true) by (rewrite (check_units_same z y N' U'); exact C). split; [congruence|]. split; [|rewrite (units_fixed y C'); exact F].
  apply standard_iff. rewrite C', andb_true_r. unfold check_dtype. assert (R : required_dtype (coord_object y) = co_dtype y).
  { rewrite D. unfold coord_object at 1. rewrite N', D. apply (required_idem (coord_object z)); reflexivity. }
  rewrite R. unfold coord_object. cbn [ob_dtype ob_coord ob_bounds]. rewrite B. apply andb_true_iff. split; [apply dtype_eqb_iff; reflexivity|]. destruct (co_bounds y); [apply dtype_eqb_iff; reflexivity|reflexivity].
Qed.
Lemma dim_inv d e : standardise_dim d = Ok e -> fst e = fst d /\ standardise_dim e = Ok e /\ (forall y, snd e = Some y -> standard (coord_object y)) /\
  match snd d, snd e with Some x, Some y => standardise_coord x = Ok y | None, None => True | _, _ => False end.
Proof.
  destruct d as [n [x|]]; unfold standardise_dim; cbn [snd fst].
  - destruct (standardise_coord x) as [y|] eqn:S; [|discriminate]. cbn [bind]. destruct (dimcoord_ok (co_points y) (co_bounds y)) eqn:M; [|discriminate]. intro H. apply Ok_inj' in H. subst e. cbn [fst snd]. destruct (coord_inv x y S) as (N & St & F). split; [reflexivity|]. split; [rewrite F; cbn [bind]; rewrite M; reflexivity|]. split; [intros z E; injection E as <-; exact St|reflexivity].
  - intro H. apply Ok_inj' in H. subst e. cbn [fst snd]. split; [reflexivity|]. split; [reflexivity|]. split; [discriminate|exact Logic.I].
Qed.
Lemma types_inv c out : standardise_types c = Ok out -> (forall o, In o (objects out) -> standard o) /\ standardise_types out = Ok out /\ cu_flag out = cu_flag c /\ cu_methods out = cu_methods c /\ cu_attributes out = cu_attributes c /\ cu_data out = cu_data c /\ cu_name out = cu_name c /\ cu_units out = cu_units c /\
  Forall2 (fun d e => standardise_dim d = Ok e) (cu_dims c) (cu_dims out) /\ Forall2 (fun d e => standardise_coord d = Ok e) (cu_aux c) (cu_aux out).
Proof.
  unfold standardise_types. destruct (mapM standardise_dim (cu_dims c)) as [ds|] eqn:D; [|discriminate]. cbn [bind]. destruct (mapM standardise_coord (cu_aux c)) as [aux|] eqn:A; [|discriminate]. cbn [bind]. intro H. apply Ok_inj' in H. subst out. apply mapM_in in D, A. cbn [cu_flag cu_methods cu_attributes cu_data cu_name cu_units cu_dims cu_aux cu_dtype].
  split; [|split; [|repeat (split; [reflexivity|]); split; assumption]].
  - unfold objects, dim_coords. cbn [cu_name cu_dtype cu_dims cu_aux]. intros o [<-|O].
    + apply standard_iff. unfold check_dtype, check_units, required_dtype, spec_of. cbn [ob_coord ob_dtype]. unfold standard_dtype. destruct (is_float (cu_dtype c)) eqn:F; [reflexivity|]. rewrite F. destruct (cu_dtype c); reflexivity.
    + apply in_map_iff in O as (y & <- & Y). apply in_app_iff in Y as [Y|Y].
      * apply in_flat_map in Y as (e & E & Y). destruct (Forall2_right _ _ _ D e E) as (d & _ & S). destruct (dim_inv d e S) as (_ & _ & G & _). destruct (snd e) as [y'|]; [|destruct Y]. destruct Y as [<-|[]]. apply G. reflexivity.
      * destruct (Forall2_right _ _ _ A y Y) as (x & _ & S). apply (coord_inv x y S).
  - rewrite (mapM_fixed standardise_dim ds); [|intros e E; destruct (Forall2_right _ _ _ D e E) as (d & _ & S); apply (dim_inv d e S)]. cbn [bind]. rewrite (mapM_fixed standardise_coord aux); [|intros y Y; destruct (Forall2_right _ _ _ A y Y) as (x & _ & S); apply (coord_inv x y S)]. cbn [bind].
    f_equal. f_equal. unfold standard_dtype. destruct (is_float (cu_dtype c)) eqn:F; [reflexivity|]. rewrite F. reflexivity.
Qed.

(** * C94 *)
(** Whatever is given and whatever the options, what is returned passes the check of mandatory standards. *)
Theorem C94_standards conv stamp o c out : process conv stamp o c = Ok out -> check_mandatory_standards (objects out) = Ok tt.
Proof.
  unfold process. intro H. destruct (remove_flag c) as [c1|]; [|discriminate]. cbn [bind] in H. destruct (match given (op_units o) with Some u => _ | None => _ end) as [c2|]; [|discriminate]. cbn [bind] in H. destruct (modify_coords _ _) as [c3|]; [|discriminate]. cbn [bind] in H.
  destruct (match amend_attributes _ _ _ with (a, None) => _ | (_, Some e) => _ end) as [c4|]; [|discriminate]. cbn [bind] in H. apply C82_standards. exact (proj1 (types_inv _ _ H)).
Qed.
Lemma round_length l p : round_close l = Ok p -> length p = length l.
Proof. unfold round_close. destruct (forallb near_integer l); [|discriminate]. intro H. apply Ok_inj' in H. subst p. apply map_length. Qed.
Lemma Forall2_same_length {A B} (P : A -> B -> Prop) l r : Forall2 P l r -> length l = length r.
Proof. induction 1; cbn; congruence. Qed.
Lemma coord_length x y : standardise_coord x = Ok y -> length (co_points y) = length (co_points x).
Proof.
  unfold standardise_coord. destruct (required_units x) as [z|] eqn:U; [|discriminate]. cbn [bind]. intro H.
  assert (L1 : length (co_points z) = length (co_points x)).
  { unfold required_units in U. destruct (time_coords (co_name x)) as [[d w]|]; [|apply Ok_inj' in U; subst; reflexivity]. destruct (check_units (coord_object x)); [apply Ok_inj' in U; subst; reflexivity|]. destruct (co_units x) as [u|]; [|discriminate]. destruct (mapM (convert_time u w) (co_points x)) as [p|] eqn:P; [|discriminate]. cbn [bind] in U. apply mapM_in, Forall2_same_length in P.
    destruct (match co_bounds x with None => _ | Some l => _ end) as [b|]; [|discriminate]. cbn [bind] in U. apply Ok_inj' in U. subst z. cbn. lia. }
  rewrite <- L1. unfold required_type in H. destruct (is_integer (required_dtype (coord_object z))); [|apply Ok_inj' in H; subst; reflexivity]. destruct (round_close (co_points z)) as [p|] eqn:P; [|discriminate]. cbn [bind] in H. apply round_length in P. destruct (match co_bounds z with None => _ | Some l => _ end) as [b|]; [|discriminate]. cbn [bind] in H. apply Ok_inj' in H. subst y. cbn. rewrite map_length. exact P.
Qed.
Lemma dim_scalar d e : standardise_dim d = Ok e -> is_scalar e = is_scalar d.
Proof.
  intro H. destruct (dim_inv d e H) as (_ & _ & _ & M). unfold is_scalar. destruct (snd d) as [x|], (snd e) as [y|]; try contradiction; [|reflexivity]. destruct (coord_inv x y M) as (N & _). rewrite N, (coord_length x y M). reflexivity.
Qed.
(** One turn of the modification of coordinates. *)
Lemma modify_one_inv n vs t c c' : modify_one (n, (vs, t)) c = Ok c' -> cu_dims c' = cu_dims c /\ cu_flag c' = cu_flag c /\ cu_methods c' = cu_methods c /\ cu_data c' = cu_data c /\ cu_attributes c' = cu_attributes c /\ cu_name c' = cu_name c /\ cu_units c' = cu_units c /\ cu_dtype c' = cu_dtype c /\
  ((forall x, In x (dim_coords c ++ cu_aux c) -> co_name x <> n) /\ cu_aux c' = cu_aux c \/
   exists v, vs = [v] /\ time_coords n = None /\ (forall x, In x (dim_coords c) -> co_name x <> n) /\ (forall x, In x (cu_aux c) -> co_name x = n -> length (co_points x) = 1%nat) /\ cu_aux c' = map (fun x => if String.eqb (co_name x) n then set_point v t x else x) (cu_aux c)).
Proof.
  unfold modify_one. destruct (existsb (named n) (dim_coords c)) eqn:D; [discriminate|]. assert (ND : forall x, In x (dim_coords c) -> co_name x <> n).
  { intros x X E. assert (existsb (named n) (dim_coords c) = true) by (apply existsb_exists; exists x; split; [exact X|unfold named; apply String.eqb_eq; exact E]). congruence. }
  destruct (existsb (named n) (cu_aux c)) eqn:A; cbn [negb].
  - destruct (1 <? length vs)%nat; [discriminate|]. destruct (time_coords n) eqn:T; [discriminate|]. destruct vs as [|v [|v' vs]]; try discriminate. destruct (forallb _ (cu_aux c)) eqn:F; [|discriminate]. intro H. apply Ok_inj' in H. subst c'. cbn. repeat (split; [reflexivity|]). right. exists v. repeat (split; [assumption || reflexivity|]). split; [|reflexivity].
    intros x X E. rewrite forallb_forall in F. specialize (F x X). unfold named in F. rewrite E, String.eqb_refl in F. cbn in F. apply Nat.eqb_eq in F. exact F.
  - intro H. apply Ok_inj' in H. subst c'. repeat (split; [reflexivity|]). left. split; [|reflexivity]. intros x X E. apply in_app_iff in X as [X|X]; [exact (ND x X E)|]. assert (existsb (named n) (cu_aux c) = true) by (apply existsb_exists; exists x; split; [exact X|unfold named; apply String.eqb_eq; exact E]). congruence.
Qed.
Lemma modify_cons n vs t ms c out : modify_coords ((n, (vs, t)) :: ms) c = Ok out -> exists c', modify_one (n, (vs, t)) c = Ok c' /\ modify_coords ms c' = Ok out.
Proof.
  unfold modify_coords. cbn [fold_left bind]. destruct (modify_one (n, (vs, t)) c) as [c'|e]; [intro H; exists c'; auto|]. intro H. exfalso. revert H. induction ms as [|m ms IH]; cbn [fold_left bind]; [discriminate|exact IH].
Qed.
Lemma modify_frame ms : forall c out, modify_coords ms c = Ok out -> cu_dims out = cu_dims c /\ cu_flag out = cu_flag c /\ cu_methods out = cu_methods c /\ cu_data out = cu_data c /\ cu_attributes out = cu_attributes c /\ cu_name out = cu_name c /\ cu_units out = cu_units c /\ cu_dtype out = cu_dtype c /\
  Forall2 (fun x y => co_name y = co_name x /\ (y = x \/ time_coords (co_name x) = None)) (cu_aux c) (cu_aux out).
Proof.
  induction ms as [|(n & vs & t) ms IH]; intros c out H.
  - cbn in H. apply Ok_inj' in H. subst out. repeat (split; [reflexivity|]). induction (cu_aux c); constructor; auto.
  - destruct (modify_cons n vs t ms c out H) as (c' & H1 & H2). destruct (modify_one_inv n vs t c c' H1) as (D & F & M & Da & At & Na & Un & Dt & Ax). destruct (IH c' out H2) as (D' & F' & M' & Da' & At' & Na' & Un' & Dt' & Ax').
    repeat (split; [congruence|]). destruct Ax as [(_ & E)|(v & _ & T & _ & _ & E)]; rewrite E in Ax'; [exact Ax'|]. clear -Ax' T. revert Ax'. generalize (cu_aux out) as r. induction (cu_aux c) as [|x l IHl]; intros r G; cbn [map] in G; inversion G as [|a b l' r' P Q]; subst; constructor; [|apply IHl; exact Q].
    destruct (String.eqb_spec (co_name x) n) as [<-|]; [|exact P]. destruct P as [P1 _]. cbn in P1. auto.
Qed.

(** The whole: the cube after the flags, and the cube before types and units are looked at. *)
Definition value_of (conv : string -> string -> option (Q * Q)) (o : options) (c : scube) : option (Q -> Q) :=
  match op_units o with
  | None | Some ""%string => Some (fun q => q)
  | Some u => if string_dec u (cu_units c) then Some (fun q => q) else match conv (cu_units c) u with Some (a, b) => Some (fun q => a * q + b) | None => None end
  end.
Lemma process_inv conv stamp o c out : process conv stamp o c = Ok out -> exists c1 c4 f, remove_flag c = Ok c1 /\ standardise_types c4 = Ok out /\ value_of conv o c1 = Some f /\
  cu_dims c4 = cu_dims (remove_coords (op_remove o) (collapse c1)) /\ (cu_flag c1 = None -> cu_flag c4 = None) /\ (forall idx, cu_data c4 idx = option_map f (cu_data c1 (expand (cu_dims c1) idx))) /\
  cu_methods c4 = filter (fun m => negb (redundant m)) (cu_methods c1) /\ amend_attributes stamp (cu_attributes c1) (op_attributes o) = (cu_attributes c4, None) /\ cu_name c4 = (match op_name o with Some n => if string_dec n "" then cu_name c1 else n | None => cu_name c1 end) /\
  (exists c2 c3, cu_aux c2 = cu_aux (remove_coords (op_remove o) (collapse c1)) /\ cu_dims c2 = cu_dims c4 /\ modify_coords (op_modify o) c2 = Ok c3 /\ cu_aux c3 = cu_aux c4 /\ cu_dims c3 = cu_dims c4).
Proof.
  unfold process. intro H. destruct (remove_flag c) as [c1|] eqn:R; [|discriminate]. cbn [bind] in H. exists c1. set (k := match given (op_name o) with Some n => rename n (collapse c1) | None => collapse c1 end) in H.
  assert (K : cu_dims k = cu_dims (collapse c1) /\ cu_aux k = cu_aux (collapse c1) /\ cu_flag k = cu_flag c1 /\ cu_data k = cu_data (collapse c1) /\ cu_methods k = cu_methods c1 /\ cu_attributes k = cu_attributes c1 /\ cu_units k = cu_units c1 /\ cu_name k = (match op_name o with Some n => if string_dec n "" then cu_name c1 else n | None => cu_name c1 end)).
  { unfold k, given. destruct (op_name o) as [n|]; [|repeat split]. destruct (string_dec n "") as [->|N]; [repeat split|]. destruct n; [contradiction|]. repeat split. }
  clearbody k. destruct K as (K1 & K2 & K3 & K4 & K5 & K6 & K7 & K8).
  destruct (match given (op_units o) with Some u => convert_data conv u k | None => Ok k end) as [k2|] eqn:U; [|discriminate]. cbn [bind] in H.
  assert (G : exists f, value_of conv o c1 = Some f /\ cu_dims k2 = cu_dims k /\ cu_aux k2 = cu_aux k /\ cu_flag k2 = cu_flag k /\ (forall idx, cu_data k2 idx = option_map f (cu_data k idx)) /\ cu_methods k2 = cu_methods k /\ cu_attributes k2 = cu_attributes k /\ cu_name k2 = cu_name k).
  { assert (Id : forall x : option Q, x = option_map (fun q => q) x) by (intros [|]; reflexivity). unfold value_of. unfold given in U. destruct (op_units o) as [[|ch u]|]; try (apply Ok_inj' in U; subst k2; exists (fun q => q); repeat split; intro; apply Id).
    unfold convert_data in U. rewrite K7 in U. destruct (string_dec (String ch u) (cu_units c1)) as [E|E].
    - rewrite E, String.eqb_refl in U. apply Ok_inj' in U; subst k2; exists (fun q => q); repeat split; intro; apply Id.
    - destruct (String.eqb_spec (String ch u) (cu_units c1)); [contradiction|]. destruct (conv (cu_units c1) (String ch u)) as [[a b]|]; [|discriminate]. apply Ok_inj' in U. subst k2. eexists. split; [reflexivity|]. repeat split. }
  destruct G as (f & F & G1 & G2 & G3 & G4 & G5 & G6 & G7). destruct (modify_coords (op_modify o) (remove_coords (op_remove o) k2)) as [k3|] eqn:M; [|discriminate]. cbn [bind] in H.
  destruct (modify_frame _ _ _ M) as (M1 & M2 & M3 & M4 & M5 & M6 & _ & _ & M9). cbn [cu_dims cu_flag cu_methods cu_data cu_attributes cu_name remove_coords] in M1, M2, M3, M4, M5, M6.
  destruct (amend_attributes stamp (cu_attributes k3) (op_attributes o)) as [a [e|]] eqn:A; [discriminate|]. cbn [bind] in H. exists (discard_methods (set_attributes a k3)), f. split; [reflexivity|]. split; [exact H|]. split; [exact F|].
  assert (E2 : cu_aux (remove_coords (op_remove o) k2) = cu_aux (remove_coords (op_remove o) (collapse c1))) by (unfold remove_coords; cbn [cu_aux]; rewrite G2, K2; reflexivity).
  assert (E1 : cu_dims (remove_coords (op_remove o) k2) = cu_dims (remove_coords (op_remove o) (collapse c1))) by (unfold remove_coords; cbn [cu_dims]; rewrite G1, K1; reflexivity).
  cbn [discard_methods set_attributes cu_dims cu_flag cu_data cu_methods cu_attributes cu_name cu_aux]. split; [rewrite M1; exact E1|]. split; [congruence|]. split; [intro idx; rewrite M4, G4, K4; reflexivity|]. split; [rewrite M3, G5, K5; reflexivity|]. split; [rewrite <- K6, <- G6, <- M5; exact A|]. split; [congruence|].
  exists (remove_coords (op_remove o) k2), k3. split; [exact E2|]. split; [symmetry; exact M1|]. split; [exact M|]. split; reflexivity.
Qed.
Lemma flag_gone c c1 : remove_flag c = Ok c1 -> cu_flag c1 = None.
Proof.
  unfold remove_flag. destruct (cu_flag c) as [f|] eqn:F; [|intro H; apply Ok_inj' in H; subst; exact F]. destruct (fl_expected f); [|discriminate]. destruct (fl_masked f); [discriminate|]. destruct (is_float (cu_dtype c)); [|discriminate]. cbn [negb]. destruct (position 0 (cu_dims c)) as [[k [n co]]|]; [|intro H; apply Ok_inj' in H; subst; reflexivity].
  destruct (n =? 1)%nat; intro H; apply Ok_inj' in H; subst; reflexivity.
Qed.
Lemma expand_id ds : forall idx, (forall d, In d ds -> is_scalar d = false) -> length idx = length ds -> expand ds idx = idx.
Proof.
  induction ds as [|d ds IH]; intros [|i idx] H L; try discriminate; [reflexivity|]. cbn [expand]. rewrite (H d (or_introl eq_refl)). cbn [hd tl]. rewrite IH; [reflexivity|intros e E; apply H; right; exact E|cbn in L; lia].
Qed.
Lemma filter_all {A} (f : A -> bool) l : (forall x, In x l -> f x = true) -> filter f l = l.
Proof. induction l as [|x l IH]; intro H; [reflexivity|]. cbn [filter]. rewrite (H x (or_introl eq_refl)), IH; [reflexivity|]. intros y Y. apply H. right. exact Y. Qed.
Lemma flat_map_none {A B} (f : A -> list B) l : (forall x, In x l -> f x = []) -> flat_map f l = [].
Proof. induction l as [|x l IH]; intro H; [reflexivity|]. cbn [flat_map]. rewrite (H x (or_introl eq_refl)), IH; [reflexivity|]. intros y Y. apply H. right. exact Y. Qed.
Lemma out_not_scalar conv stamp o c out : process conv stamp o c = Ok out -> forall d, In d (cu_dims out) -> is_scalar d = false.
Proof.
  intros H d D. destruct (process_inv _ _ _ _ _ H) as (c1 & c4 & f & _ & S & _ & Di & _). destruct (types_inv _ _ S) as (_ & _ & _ & _ & _ & _ & _ & _ & F & _). destruct (Forall2_right _ _ _ F d D) as (e & E & Se). rewrite (dim_scalar e d Se). rewrite Di in E. unfold remove_coords in E. cbn [cu_dims collapse] in E. apply in_map_iff in E as (g & <- & G). apply filter_In in G as [_ G]. apply negb_true_iff in G.
  unfold is_scalar in *. cbn [snd]. destruct (snd g) as [x|]; [|reflexivity]. destruct (existsb _ _); [reflexivity|exact G].
Qed.
(** What has been standardised is not changed by standardising it again. *)
Theorem C94_idempotent conv stamp o c out : process conv stamp o c = Ok out -> exists out', process conv stamp no_options out = Ok out' /\ same out out'.
Proof.
  intro H. pose proof (out_not_scalar _ _ _ _ _ H) as NS. destruct (process_inv _ _ _ _ _ H) as (c1 & c4 & f & R & S & _ & _ & Fl & _ & Me & _). specialize (Fl (flag_gone _ _ R)). destruct (types_inv _ _ S) as (_ & Fix & F & M & _ & _ & _ & _ & _ & _).
  unfold process, no_options. cbn [op_name op_units op_remove op_modify op_attributes given]. unfold remove_flag. rewrite F, Fl. cbn [bind]. unfold modify_coords. cbn [fold_left bind amend_attributes].
  set (k := discard_methods _).
  assert (K : k = {| cu_name := cu_name out; cu_units := cu_units out; cu_dtype := cu_dtype out; cu_dims := cu_dims out; cu_aux := cu_aux out; cu_flag := cu_flag out; cu_data := fun idx => cu_data out (expand (cu_dims out) idx); cu_attributes := cu_attributes out; cu_methods := cu_methods out |}).
  { unfold k, discard_methods, set_attributes, remove_coords, collapse. cbn [cu_name cu_units cu_dtype cu_dims cu_aux cu_flag cu_data cu_attributes cu_methods].
    assert (E1 : filter (fun d => negb (is_scalar d)) (cu_dims out) = cu_dims out) by (apply filter_all; intros d D; rewrite (NS d D); reflexivity). rewrite E1.
    assert (E2 : flat_map (fun d => if is_scalar d then match snd d with Some x => [x] | None => [] end else []) (cu_dims out) = []) by (apply flat_map_none; intros d D; rewrite (NS d D); reflexivity). rewrite E2. cbn [app existsb].
    f_equal. - rewrite <- (map_id (cu_dims out)) at 2. apply map_ext. intros [n [x|]]; reflexivity. - apply filter_all. reflexivity. - apply filter_all. intros m X. rewrite M, Me in X. apply filter_In in X. apply X. }
  rewrite K. clear k K. unfold standardise_types in Fix |- *. cbn [cu_name cu_units cu_dtype cu_dims cu_aux cu_flag cu_data cu_attributes cu_methods]. destruct (mapM standardise_dim (cu_dims out)) as [ds|]; [|discriminate]. cbn [bind] in Fix |- *. destruct (mapM standardise_coord (cu_aux out)) as [aux|]; [|discriminate]. cbn [bind] in Fix |- *. apply Ok_inj' in Fix.
  eexists. split; [reflexivity|]. unfold same. cbn [cu_name cu_units cu_dtype cu_dims cu_aux cu_flag cu_data cu_attributes cu_methods]. pose proof (f_equal cu_dims Fix) as Fd. pose proof (f_equal cu_aux Fix) as Fa. pose proof (f_equal cu_dtype Fix) as Ft. cbn in Fd, Fa, Ft.
  repeat (split; [congruence|]). intros idx L. rewrite expand_id by (exact NS || exact L). reflexivity.
Qed.
(** ** Data *)
(** Each dimension is as long as its coordinate, and the indices are within. *)
Definition well_formed (ds : list dimension) : Prop := forall n x, In (n, Some x) ds -> n = length (co_points x).
Definition within (ds : list dimension) (idx : list nat) : Prop := Forall2 (fun (d : dimension) i => (i < fst d)%nat) ds idx.
Definition single_b (d : dimension) : bool := match snd d with Some c => match co_points c with [_] => negb (contains "realization" (co_name c)) | _ => false end | None => false end.
(** The indices left when single dimensions are gone. *)
Definition squeeze (ds : list dimension) (idx : list nat) : list nat := map snd (filter (fun di => negb (single_b (fst di))) (combine ds idx)).
Lemma single_scalar d : is_scalar d = single_b d.
Proof. unfold is_scalar, single_b. destruct (snd d) as [x|]; [|reflexivity]. destruct (co_points x) as [|p [|q r]]; reflexivity. Qed.
Lemma expand_squeeze ds : forall idx, well_formed ds -> within ds idx -> expand ds (squeeze ds idx) = idx.
Proof.
  intros idx W H. induction H as [|d i ds idx L H IH]; [reflexivity|]. assert (W' : well_formed ds) by (intros n x X; apply W; right; exact X). specialize (IH W'). cbn [expand]. rewrite single_scalar. unfold squeeze. cbn [combine filter fst]. destruct (single_b d) eqn:S; cbn [negb].
  - fold (squeeze ds idx). rewrite IH. f_equal. destruct d as [n [x|]]; [|discriminate]. specialize (W n x (or_introl eq_refl)). unfold single_b in S. cbn [snd] in S. destruct (co_points x) as [|p [|q r]]; try discriminate. cbn in L, W. lia.
  - cbn [map snd hd tl]. fold (squeeze ds idx). rewrite IH. reflexivity.
Qed.
Lemma process_dims conv stamp o c out : process conv stamp o c = Ok out -> cu_flag c = None -> map fst (cu_dims out) = map fst (filter (fun d => negb (single_b d)) (cu_dims c)).
Proof.
  intros H F. destruct (process_inv _ _ _ _ _ H) as (c1 & c4 & f & R & S & _ & Di & _). unfold remove_flag in R. rewrite F in R. apply Ok_inj' in R. subst c1. destruct (types_inv _ _ S) as (_ & _ & _ & _ & _ & _ & _ & _ & G & _).
  assert (E : map fst (cu_dims out) = map fst (cu_dims c4)). { clear -G. induction G as [|d e l r D G IH]; [reflexivity|]. cbn [map]. rewrite IH. destruct (dim_inv d e D) as (X & _). rewrite X. reflexivity. }
  rewrite E, Di. unfold remove_coords, collapse. cbn [cu_dims]. rewrite map_map. cbn [fst]. f_equal. apply filter_ext. intro d. rewrite single_scalar. reflexivity.
Qed.
(** Without status flags: the dimensions of one point that are not of realizations are gone, the others keep their length and order, and every value is where it was, in the units asked for. *)
Theorem C94_data conv stamp o c out : process conv stamp o c = Ok out -> cu_flag c = None -> well_formed (cu_dims c) -> exists f, value_of conv o c = Some f /\
  map fst (cu_dims out) = map fst (filter (fun d => negb (single_b d)) (cu_dims c)) /\
  forall idx, within (cu_dims c) idx -> cu_data out (squeeze (cu_dims c) idx) = option_map f (cu_data c idx).
Proof.
  intros H F W. pose proof (process_dims _ _ _ _ _ H F) as Dm. destruct (process_inv _ _ _ _ _ H) as (c1 & c4 & f & R & S & V & _ & _ & Da & _). unfold remove_flag in R. rewrite F in R. apply Ok_inj' in R. subst c1. exists f. split; [exact V|]. split; [exact Dm|].
  intros idx I0. destruct (types_inv _ _ S) as (_ & _ & _ & _ & _ & D & _). rewrite D, Da, expand_squeeze by assumption. reflexivity.
Qed.
(** Status flags: the values flagged, and no others, become NaN. Without a dimension of realizations nothing else happens. *)
Theorem C94_flags c c1 f : cu_flag c = Some f -> (forall d, In d (cu_dims c) -> is_realization d = false) ->
  (remove_flag c = Ok c1 <-> fl_expected f = true /\ fl_masked f = false /\ is_float (cu_dtype c) = true /\ c1 = with_shape (cu_dims c) (cu_aux c) (cu_data c1) c /\ cu_data c1 = (fun idx => if fl_at f idx then None else cu_data c idx)).
Proof.
  intros F NR. assert (P : forall k, position k (cu_dims c) = None). { revert NR. generalize (cu_dims c). induction l as [|d l IH]; intros H k; [reflexivity|]. cbn [position]. rewrite (H d (or_introl eq_refl)). apply IH. intros e E. apply H. right. exact E. }
  unfold remove_flag. rewrite F, P. destruct (fl_expected f); cbn [negb]; [|split; [discriminate|intros (X & _); discriminate]]. destruct (fl_masked f); [split; [discriminate|intros (_ & X & _); discriminate]|]. destruct (is_float (cu_dtype c)); cbn [negb]; [|split; [discriminate|intros (_ & _ & X & _); discriminate]].
  split.
  - intro H. apply Ok_inj' in H. subst c1. repeat (split; [reflexivity|]). reflexivity.
  - intros (_ & _ & _ & E & G). rewrite E, G. reflexivity.
Qed.
(** With a dimension of realizations (the k-th) that has several: it comes first, the others keep their order, and again exactly the flagged values are NaN. *)
Lemma position_spec ds : forall k j d, position k ds = Some (j, d) -> exists a b, ds = a ++ d :: b /\ j = (k + length a)%nat /\ is_realization d = true.
Proof.
  induction ds as [|e ds IH]; intros k j d H; [discriminate|]. cbn [position] in H. destruct (is_realization e) eqn:R.
  - injection H as <- <-. exists [], ds. split; [reflexivity|]. split; [cbn; lia|exact R].
  - destruct (IH _ _ _ H) as (a & b & -> & -> & R'). exists (e :: a), b. split; [reflexivity|]. split; [cbn; lia|exact R'].
Qed.
Theorem C94_flags_realizations c c1 f : cu_flag c = Some f -> (exists d, In d (cu_dims c) /\ is_realization d = true) -> remove_flag c = Ok c1 ->
  exists a d b, cu_dims c = a ++ d :: b /\ is_realization d = true /\
  (fst d <> 1%nat -> cu_dims c1 = d :: a ++ b /\ cu_aux c1 = cu_aux c /\ forall i r j, length i = length a -> cu_data c1 (r :: i ++ j) = if fl_at f (i ++ r :: j) then None else cu_data c (i ++ r :: j)) /\
  (fst d = 1%nat -> cu_dims c1 = a ++ b /\ (forall x, snd d = Some x -> In x (cu_aux c1)) /\ forall i j, length i = length a -> cu_data c1 (i ++ j) = if fl_at f (i ++ 0%nat :: j) then None else cu_data c (i ++ 0%nat :: j)).
Proof.
  intros F (d & D & R) H. unfold remove_flag in H. rewrite F in H. destruct (fl_expected f); [|discriminate]. destruct (fl_masked f); [discriminate|]. destruct (is_float (cu_dtype c)); [|discriminate]. cbn [negb] in H.
  destruct (position 0 (cu_dims c)) as [[k e]|] eqn:P.
  - destruct (position_spec _ _ _ _ P) as (a & b & E & K & R'). cbn [Nat.add] in K. exists a, e, b. split; [exact E|]. split; [exact R'|]. destruct e as [n co]. cbn [fst snd].
    assert (E1 : firstn k (cu_dims c) = a) by (rewrite E, K, firstn_app, Nat.sub_diag, firstn_all; cbn; apply app_nil_r). assert (E2 : skipn (S k) (cu_dims c) = b). { rewrite E, K. rewrite skipn_app. rewrite skipn_all2 by lia. replace (S (length a) - length a)%nat with 1%nat by lia. reflexivity. }
    rewrite E1, E2 in H. destruct (Nat.eqb_spec n 1) as [N|N]; apply Ok_inj' in H; subst c1; cbn [with_shape cu_dims cu_aux cu_data]; (split; [intro M; try contradiction|intro M; try contradiction]).
    + split; [reflexivity|]. split; [intros x ->; left; reflexivity|]. intros i j L. rewrite firstn_app, K, <- L, Nat.sub_diag, firstn_all, skipn_app, skipn_all, Nat.sub_diag. cbn [firstn skipn app]. rewrite app_nil_r. reflexivity.
    + split; [reflexivity|]. split; [reflexivity|]. intros i r j L. cbn [hd tl]. rewrite firstn_app, K, <- L, Nat.sub_diag, firstn_all, skipn_app, skipn_all, Nat.sub_diag. cbn [firstn skipn app]. rewrite app_nil_r. reflexivity.
  - exfalso. clear -P D R. revert P. generalize 0%nat. induction (cu_dims c) as [|e l IH]; intros k P; [destruct D|]. cbn [position] in P. destruct (is_realization e) eqn:E; [discriminate|]. destruct D as [->|D]; [congruence|]. exact (IH D _ P).
Qed.
(** ** Cell methods, name and attributes *)
Theorem C94_methods conv stamp o c out : process conv stamp o c = Ok out -> forall m, In m (cu_methods out) <-> In m (cu_methods c) /\ m <> {| cm_method := "point"; cm_coords := ["time"%string]; cm_intervals := []; cm_comments := [] |}.
Proof.
  intros H m. destruct (process_inv _ _ _ _ _ H) as (c1 & c4 & f & R & S & _ & _ & _ & _ & Me & _). destruct (types_inv _ _ S) as (_ & _ & _ & M & _). rewrite M, Me, filter_In, negb_true_iff.
  assert (E : cu_methods c1 = cu_methods c). { clear -R. unfold remove_flag in R. destruct (cu_flag c) as [f|]; [|apply Ok_inj' in R; subst; reflexivity]. destruct (fl_expected f); [|discriminate]. destruct (fl_masked f); [discriminate|]. destruct (is_float (cu_dtype c)); [|discriminate]. cbn [negb] in R. destruct (position 0 (cu_dims c)) as [[k [n co]]|]; [|apply Ok_inj' in R; subst; reflexivity]. destruct (n =? 1)%nat; apply Ok_inj' in R; subst; reflexivity. }
  rewrite E. assert (G : redundant m = false <-> m <> {| cm_method := "point"; cm_coords := ["time"%string]; cm_intervals := []; cm_comments := [] |}).
  { destruct m as [a b i t]. unfold redundant. cbn [cm_method cm_coords cm_intervals cm_comments]. split.
    - intros X Y. injection Y as -> -> -> ->. discriminate.
    - intro X. apply not_true_is_false. intro Y. apply andb_true_iff in Y as [Y1 Y2]. apply String.eqb_eq in Y1. destruct b as [|b0 [|]]; try discriminate. destruct i; try discriminate. destruct t; try discriminate. apply String.eqb_eq in Y2. subst. apply X. reflexivity. }
  rewrite G. reflexivity.
Qed.
Lemma flag_keeps c c1 : remove_flag c = Ok c1 -> cu_name c1 = cu_name c /\ cu_attributes c1 = cu_attributes c /\ cu_units c1 = cu_units c /\ forall x, In x (dim_coords c1 ++ cu_aux c1) <-> In x (dim_coords c ++ cu_aux c).
Proof.
  unfold remove_flag. destruct (cu_flag c) as [f|]; [|intro H; apply Ok_inj' in H; subst; repeat split; auto]. destruct (fl_expected f); [|discriminate]. destruct (fl_masked f); [discriminate|]. destruct (is_float (cu_dtype c)); [|discriminate]. cbn [negb].
  destruct (position 0 (cu_dims c)) as [[k [n co]]|] eqn:P; [|intro H; apply Ok_inj' in H; subst; repeat split; auto].
  destruct (position_spec _ _ _ _ P) as (a & b & E & K & _). cbn [Nat.add] in K.
  assert (E1 : firstn k (cu_dims c) = a) by (rewrite E, K, firstn_app, Nat.sub_diag, firstn_all; cbn; apply app_nil_r). assert (E2 : skipn (S k) (cu_dims c) = b). { rewrite E, K. rewrite skipn_app. rewrite skipn_all2 by lia. replace (S (length a) - length a)%nat with 1%nat by lia. reflexivity. }
  rewrite E1, E2. intro H. destruct (n =? 1)%nat; apply Ok_inj' in H; subst c1; cbn [with_shape cu_name cu_attributes cu_units cu_dims cu_aux]; (split; [reflexivity|]; split; [reflexivity|]; split; [reflexivity|]); intro x; unfold dim_coords; cbn [cu_dims cu_aux with_shape]; rewrite E; cbn [flat_map snd]; rewrite !flat_map_app; cbn [flat_map snd]; destruct co as [y|]; rewrite !in_app_iff; cbn [In]; intuition.
Qed.
Theorem C94_name conv stamp o c out : process conv stamp o c = Ok out -> (op_name o = None \/ op_name o = Some ""%string -> cu_name out = cu_name c) /\ (forall n, op_name o = Some n -> n <> ""%string -> cu_name out = n) /\ amend_attributes stamp (cu_attributes c) (op_attributes o) = (cu_attributes out, None).
Proof.
  intro H. destruct (process_inv _ _ _ _ _ H) as (c1 & c4 & f & R & S & _ & _ & _ & _ & _ & A & N & _). destruct (types_inv _ _ S) as (_ & _ & _ & _ & At & _ & Na & _). destruct (flag_keeps c c1 R) as (K1 & K2 & _). rewrite Na, N, At, <- K2, K1. split; [|split; [|exact A]].
  - intros [E|E]; rewrite E; [reflexivity|]. destruct (string_dec "" ""); [reflexivity|contradiction].
  - intros n E X. rewrite E. destruct (string_dec n ""); [contradiction|reflexivity].
Qed.
(** C94: the units are those asked for; the type of data in floating point, or whose units change, is float32, that of others is kept. *)
Theorem C94_units conv stamp o c out : process conv stamp o c = Ok out -> let u := match op_units o with None | Some ""%string => cu_units c | Some u => u end in
  cu_units out = u /\ cu_dtype out = (if string_dec u (cu_units c) then if is_float (cu_dtype c) then Float32 else cu_dtype c else Float32).
Proof.
  unfold process. intro H. destruct (remove_flag c) as [c1|] eqn:R; [|discriminate]. cbn [bind] in H. assert (R1 : cu_units c1 = cu_units c /\ cu_dtype c1 = cu_dtype c).
  { unfold remove_flag in R. destruct (cu_flag c) as [f|]; [|injection R as <-; auto]. destruct (negb (fl_expected f)); [discriminate|]. destruct (fl_masked f); [discriminate|]. destruct (negb (is_float (cu_dtype c))); [discriminate|]. destruct (position 0 (cu_dims c)) as [[k [n co]]|]; [destruct (n =? 1)%nat|]; injection R as <-; auto. }
  destruct R1 as [R1 R2]. set (k := match given (op_name o) with Some n => rename n (collapse c1) | None => collapse c1 end) in H. assert (K : cu_units k = cu_units c /\ cu_dtype k = cu_dtype c) by (unfold k; destruct (given (op_name o)); cbn; auto). clearbody k.
  set (u := match op_units o with None | Some ""%string => cu_units c | Some u => u end). destruct (match given (op_units o) with Some u => convert_data conv u k | None => Ok k end) as [k2|] eqn:C; [|discriminate]. cbn [bind] in H.
  assert (K2 : cu_units k2 = u /\ standard_dtype (cu_dtype k2) = (if string_dec u (cu_units c) then if is_float (cu_dtype c) then Float32 else cu_dtype c else Float32)).
  { destruct K as [K1 K3]. assert (G : (given (op_units o) = None /\ u = cu_units c) \/ given (op_units o) = Some u). { unfold given, u. destruct (op_units o) as [[|a s]|]; auto. }
    destruct G as [[G E]|G]; rewrite G in C.
    - injection C as <-. rewrite E, K1, K3. destruct (string_dec (cu_units c) (cu_units c)); [|contradiction]. auto.
    - unfold convert_data in C. rewrite K1 in C. destruct (String.eqb_spec u (cu_units c)) as [E|E]; [injection C as <-; rewrite K1, K3; destruct (string_dec u (cu_units c)); [auto|contradiction]|]. destruct (conv (cu_units c) u) as [[a b]|]; [|discriminate]. injection C as <-. cbn [cu_units cu_dtype]. destruct (string_dec u (cu_units c)); [contradiction|]. rewrite K3. split; [reflexivity|]. unfold standard_dtype. destruct (is_float (cu_dtype c)) eqn:F; [now rewrite F|reflexivity]. }
  clearbody u. clear C K. set (k3 := remove_coords (op_remove o) k2) in H. assert (M : forall ms a b, modify_coords ms a = Ok b -> cu_units b = cu_units a /\ cu_dtype b = cu_dtype a).
  { assert (M1 : forall m a b, modify_one m a = Ok b -> cu_units b = cu_units a /\ cu_dtype b = cu_dtype a). { intros [n [vs t]] a b E. unfold modify_one in E. destruct (existsb (named n) (dim_coords a)); [discriminate|]. destruct (negb _); [injection E as <-; auto|]. destruct (1 <? length vs)%nat; [discriminate|]. destruct (time_coords n); [discriminate|]. destruct vs as [|v [|]]; try discriminate. destruct (forallb _ _); [|discriminate]. injection E as <-. auto. }
    unfold modify_coords. induction ms as [|m ms IH]; intros a b E; [cbn in E; injection E as <-; auto|]. cbn [fold_left bind] in E. destruct (modify_one m a) as [a'|e] eqn:E1; [destruct (IH a' b E) as [A B]; destruct (M1 _ _ _ E1) as [A1 B1]; rewrite A, B; auto|]. exfalso. clear - E. induction ms as [|m ms IH]; [discriminate|]. cbn in E. exact (IH E). }
  destruct (modify_coords (op_modify o) k3) as [k4|] eqn:Mo; [|discriminate]. cbn [bind] in H. apply M in Mo as [M1 M2]. destruct (amend_attributes stamp (cu_attributes k4) (op_attributes o)) as [a [e|]]; [discriminate|]. cbn [bind] in H. unfold standardise_types in H. destruct (mapM standardise_dim _); [|discriminate]. cbn [bind] in H. destruct (mapM standardise_coord _); [|discriminate]. cbn [bind] in H. injection H as <-. cbn [cu_units cu_dtype discard_methods set_attributes]. rewrite M1, M2. exact K2.
Qed.
(** ** Coordinates *)
Definition coords (c : scube) : list coord := dim_coords c ++ cu_aux c.
Lemma collapse_coords c x : In x (coords (collapse c)) <-> In x (coords c).
Proof.
  unfold coords, dim_coords, collapse. cbn [cu_dims cu_aux]. rewrite !in_app_iff, !in_flat_map. split.
  - intros [(d & D & X)|[(d & D & X)|X]]; [|left|right; exact X].
    + apply filter_In in D as [D _]. left. exists d. auto.
    + exists d. split; [exact D|]. destruct (is_scalar d); [exact X|destruct X].
  - intros [(d & D & X)|X]; [|auto]. destruct (is_scalar d) eqn:E; [right; left|left]; exists d; [rewrite E; auto|]. split; [apply filter_In; rewrite E; auto|exact X].
Qed.
Lemma remove_coords_in names c x : In x (coords (remove_coords names c)) <-> In x (coords c) /\ ~ In (co_name x) names.
Proof.
  unfold coords, dim_coords, remove_coords. cbn [cu_dims cu_aux]. rewrite !in_app_iff, !in_flat_map, filter_In, negb_true_iff.
  assert (G : forall y, existsb (String.eqb (co_name y)) names = false <-> ~ In (co_name y) names).
  { intro y. rewrite <- not_true_iff_false, smem_iff. reflexivity. }
  rewrite (G x). split.
  - intros [(d & D & X)|(X & N)]; [|auto]. apply in_map_iff in D as ([n [y|]] & <- & D); cbn [fst snd] in X; [|destruct X]. destruct (existsb (String.eqb (co_name y)) names) eqn:E; [destruct X|]. destruct X as [<-|[]]. split; [left; exists (n, Some y); split; [exact D|left; reflexivity]|apply G; exact E].
  - intros [[(d & D & X)|X] N]; [left|auto]. destruct d as [n [y|]]; [|destruct X]. destruct X as [<-|[]]. exists (n, Some y). split; [|left; reflexivity]. apply in_map_iff. exists (n, Some y). split; [cbn [fst snd]; apply G in N; rewrite N; reflexivity|exact D].
Qed.
(** Every coordinate of the result is one of the input that was not to be removed, standardised (and, if it is not one of time, perhaps modified). *)
Lemma out_coords conv stamp o c out y : process conv stamp o c = Ok out -> In y (coords out) -> exists x z, In x (coords c) /\ ~ In (co_name x) (op_remove o) /\ co_name z = co_name x /\ (z = x \/ time_coords (co_name x) = None) /\ standardise_coord z = Ok y.
Proof.
  intros H Y. destruct (process_inv _ _ _ _ _ H) as (c1 & c4 & f & R & S & _ & Di & _ & _ & _ & _ & _ & c2 & c3 & A2 & D2 & M & A3 & D3). destruct (types_inv _ _ S) as (_ & _ & _ & _ & _ & _ & _ & _ & G1 & G2).
  assert (Z : exists z, In z (coords c4) /\ standardise_coord z = Ok y).
  { unfold coords in Y. apply in_app_iff in Y as [Y|Y].
    - unfold dim_coords in Y. apply in_flat_map in Y as (e & E & Y). destruct (Forall2_right _ _ _ G1 e E) as (d & D & Sd). destruct (dim_inv d e Sd) as (_ & _ & _ & M'). destruct (snd e) as [y'|] eqn:Ee; [|destruct Y]. destruct Y as [<-|[]]. destruct (snd d) as [z|] eqn:Ed; [|contradiction]. exists z. split; [|exact M']. unfold coords. apply in_app_iff. left. unfold dim_coords. apply in_flat_map. exists d. rewrite Ed. split; [exact D|left; reflexivity].
    - destruct (Forall2_right _ _ _ G2 y Y) as (z & Zi & Sz). exists z. split; [|exact Sz]. unfold coords. apply in_app_iff. right. exact Zi. }
  destruct Z as (z & Zi & Sz). assert (W : exists x, In x (coords (remove_coords (op_remove o) (collapse c1))) /\ co_name z = co_name x /\ (z = x \/ time_coords (co_name x) = None)).
  { unfold coords in Zi. apply in_app_iff in Zi as [Zi|Zi].
    - exists z. split; [|auto]. unfold coords. apply in_app_iff. left. unfold dim_coords in *. rewrite <- Di. exact Zi.
    - rewrite <- A3 in Zi. destruct (modify_frame _ _ _ M) as (_ & _ & _ & _ & _ & _ & _ & _ & Fx). destruct (Forall2_right _ _ _ Fx z Zi) as (x & X & N & P). rewrite A2 in X. exists x. split; [unfold coords; apply in_app_iff; right; exact X|auto]. }
  destruct W as (x & X & N & P). apply remove_coords_in in X as [X Nr]. apply (proj1 (collapse_coords c1 x)) in X. destruct (flag_keeps c c1 R) as (_ & _ & _ & K). apply (proj1 (K x)) in X. exists x, z. repeat (split; [assumption|]). exact Sz.
Qed.
Theorem C94_removed conv stamp o c out : process conv stamp o c = Ok out -> forall n, In n (op_remove o) -> forall y, In y (coords out) -> co_name y <> n.
Proof. intros H n N y Y E. destruct (out_coords _ _ _ _ _ y H Y) as (x & z & _ & Nr & E1 & _ & S). destruct (coord_inv z y S) as (E2 & _). apply Nr. rewrite <- E1, <- E2, E. exact N. Qed.
(** Coordinates of time keep their moments (lengths of time their lengths): exactly if these are whole seconds (and, for lengths, fit an int32), otherwise to half a second. *)
Lemma round_near l p : round_close l = Ok p -> Forall2 (fun x z => Qabs (inject_Z z - x) <= 1 # 2 /\ (forall w, x == inject_Z w -> z = w)) l p.
Proof.
  unfold round_close. destruct (forallb near_integer l); [|discriminate]. intro H. apply Ok_inj' in H. subst p. induction l as [|x l IH]; constructor; [|exact IH]. split; [apply rhe_near|]. intros w E. rewrite E. apply rhe_int.
Qed.
Lemma Forall2_map_r {A B C} (P : A -> C -> Prop) (g : B -> C) l r : Forall2 (fun a b => P a (g b)) l r -> Forall2 P l (map g r).
Proof. induction 1; constructor; assumption. Qed.
Lemma Forall2_weaken {A B} (P Q : A -> B -> Prop) l r : (forall a b, P a b -> Q a b) -> Forall2 P l r -> Forall2 Q l r.
Proof. intros I H. induction H; constructor; auto. Qed.
Lemma Forall2_chain {A B C} (P : A -> B -> Prop) (Q : B -> C -> Prop) (R : A -> C -> Prop) l m r : (forall a b c, P a b -> Q b c -> R a c) -> Forall2 P l m -> Forall2 Q m r -> Forall2 R l r.
Proof. intros I H. revert r. induction H as [|a b l m Pab H IH]; intros r G; inversion G; subst; constructor; eauto. Qed.
Theorem C94_times conv stamp o c out : process conv stamp o c = Ok out -> forall y, In y (coords out) -> time_name (co_name y) -> exists x u, In x (coords c) /\ co_name x = co_name y /\ co_units x = Some u /\
  Forall2 (fun p q => Qabs (q - moment u p) <= 1 # 2 /\ (forall w, moment u p == inject_Z w -> q = inject_Z w)) (co_points x) (co_points y).
Proof.
  intros H y Y T. destruct (out_coords _ _ _ _ _ y H Y) as (x & z & X & _ & E1 & P & S). destruct (coord_inv z y S) as (E2 & _). assert (Tx : time_coords (co_name x) = Some (Int64, since_1970)).
  { rewrite <- E1, <- E2. destruct (time_coords_cases (co_name y)) as [(_ & E)|[(_ & N & _)|(N & _)]]; [exact E|contradiction|contradiction]. }
  destruct P as [->|P]; [|congruence]. exists x. unfold standardise_coord in S. destruct (required_units x) as [z|] eqn:U; [|discriminate]. cbn [bind] in S.
  assert (G : exists u, co_units x = Some u /\ co_name z = co_name x /\ Forall2 (fun p q => q == moment u p) (co_points x) (co_points z)).
  { unfold required_units in U. rewrite Tx in U. destruct (check_units (coord_object x)) eqn:C.
    - apply Ok_inj' in U. subst z. unfold check_units, coord_object, spec_of in C. cbn [ob_coord ob_name ob_units] in C. rewrite Tx in C. destruct (co_units x) as [u|]; [|discriminate]. apply units_eqb_iff in C. destruct C as [C1 C2]. exists u. split; [reflexivity|]. split; [reflexivity|]. unfold since_1970 in C1, C2. cbn in C1, C2. unfold moment. destruct (un_epoch u) as [e|]; [|contradiction]. induction (co_points x) as [|p l IH]; constructor; [|exact IH]. rewrite C1, C2. ring.
    - destruct (co_units x) as [u|]; [|discriminate]. destruct (mapM (convert_time u since_1970) (co_points x)) as [p|] eqn:Mp; [|discriminate]. cbn [bind] in U. destruct (match co_bounds x with None => _ | Some l => _ end) as [b|]; [|discriminate]. cbn [bind] in U. apply Ok_inj' in U. subst z. cbn [co_name co_points]. exists u. split; [reflexivity|]. split; [reflexivity|]. apply mapM_in in Mp. eapply Forall2_weaken; [|exact Mp]. intros a q E. unfold convert_time, since_1970 in E. cbn [un_epoch un_seconds] in E. unfold moment. destruct (un_epoch u) as [e|]; [|discriminate]. apply Ok_inj' in E. subst q. field. }
  destruct G as (u & Ux & Nz & Fz). exists u. split; [exact X|]. split; [congruence|]. split; [exact Ux|]. unfold required_type in S. assert (Rq : required_dtype (coord_object z) = Int64) by (unfold required_dtype, spec_of, coord_object; cbn [ob_coord ob_name]; rewrite Nz, Tx; reflexivity). rewrite Rq in S. cbn [is_integer] in S.
  destruct (round_close (co_points z)) as [p|] eqn:Rc; [|discriminate]. cbn [bind] in S. destruct (match co_bounds z with None => _ | Some l => _ end) as [b|]; [|discriminate]. cbn [bind] in S. apply Ok_inj' in S. subst y. cbn [co_points]. apply Forall2_map_r. apply round_near in Rc. eapply Forall2_chain; [|exact Fz|exact Rc]. intros a q w E [A B]. cbn beta. split; [unfold cast; rewrite <- E; exact A|]. intros v V. unfold cast. rewrite (B v); [reflexivity|]. rewrite E. exact V.
Qed.
Theorem C94_periods conv stamp o c out : process conv stamp o c = Ok out -> forall y, In y (coords out) -> period_name (co_name y) -> exists x u, In x (coords c) /\ co_name x = co_name y /\ co_units x = Some u /\
  Forall2 (fun p q => forall w, p * un_seconds u == inject_Z w -> fits32 (inject_Z w) -> q = inject_Z w) (co_points x) (co_points y).
Proof.
  intros H y Y T. destruct (out_coords _ _ _ _ _ y H Y) as (x & z & X & _ & E1 & P & S). destruct (coord_inv z y S) as (E2 & _). assert (Tx : time_coords (co_name x) = Some (Int32, in_seconds)).
  { rewrite <- E1, <- E2. destruct (time_coords_cases (co_name y)) as [(N & _)|[(_ & _ & E)|(_ & N & _)]]; [exfalso; exact (disjoint_names _ N T)|exact E|contradiction]. }
  destruct P as [->|P]; [|congruence]. exists x. unfold standardise_coord in S. destruct (required_units x) as [z|] eqn:U; [|discriminate]. cbn [bind] in S.
  assert (G : exists u, co_units x = Some u /\ co_name z = co_name x /\ Forall2 (fun p q => q == p * un_seconds u) (co_points x) (co_points z)).
  { unfold required_units in U. rewrite Tx in U. destruct (check_units (coord_object x)) eqn:C.
    - apply Ok_inj' in U. subst z. unfold check_units, coord_object, spec_of in C. cbn [ob_coord ob_name ob_units] in C. rewrite Tx in C. destruct (co_units x) as [u|]; [|discriminate]. apply units_eqb_iff in C. destruct C as [C1 C2]. exists u. split; [reflexivity|]. split; [reflexivity|]. unfold in_seconds in C1. cbn in C1. induction (co_points x) as [|p l IH]; constructor; [|exact IH]. rewrite C1. ring.
    - destruct (co_units x) as [u|]; [|discriminate]. destruct (mapM (convert_time u in_seconds) (co_points x)) as [p|] eqn:Mp; [|discriminate]. cbn [bind] in U. destruct (match co_bounds x with None => _ | Some l => _ end) as [b|]; [|discriminate]. cbn [bind] in U. apply Ok_inj' in U. subst z. cbn [co_name co_points]. exists u. split; [reflexivity|]. split; [reflexivity|]. apply mapM_in in Mp. eapply Forall2_weaken; [|exact Mp]. intros a q E. unfold convert_time, in_seconds in E. cbn [un_epoch un_seconds] in E. destruct (un_epoch u) as [e|]; [discriminate|]. apply Ok_inj' in E. subst q. field. }
  destruct G as (u & Ux & Nz & Fz). exists u. split; [exact X|]. split; [congruence|]. split; [exact Ux|]. unfold required_type in S. assert (Rq : required_dtype (coord_object z) = Int32) by (unfold required_dtype, spec_of, coord_object; cbn [ob_coord ob_name]; rewrite Nz, Tx; reflexivity). rewrite Rq in S. cbn [is_integer] in S.
  destruct (round_close (co_points z)) as [p|] eqn:Rc; [|discriminate]. cbn [bind] in S. destruct (match co_bounds z with None => _ | Some l => _ end) as [b|]; [|discriminate]. cbn [bind] in S. apply Ok_inj' in S. subst y. cbn [co_points]. apply Forall2_map_r. apply round_near in Rc. eapply Forall2_chain; [|exact Fz|exact Rc]. intros a q w E [A B]. cbn beta. intros v V Fv. unfold cast. rewrite (B v), int32_id by (rewrite ?E; assumption). reflexivity.
Qed.
(** ** Values given for scalar coordinates (the names are the keys of a dictionary) *)
Lemma modify_one_other n vs t c c' : modify_one (n, (vs, t)) c = Ok c' -> forall y, co_name y <> n -> In y (cu_aux c') <-> In y (cu_aux c).
Proof.
  intros H y N. destruct (modify_one_inv n vs t c c' H) as (_ & _ & _ & _ & _ & _ & _ & _ & [(_ & ->)|(v & _ & _ & _ & _ & ->)]); [reflexivity|]. rewrite in_map_iff. split.
  - intros (x & E & X). destruct (String.eqb (co_name x) n) eqn:Q; [|subst; exact X]. exfalso. apply N. subst y. apply String.eqb_eq in Q. exact Q.
  - intro Y. exists y. split; [|exact Y]. destruct (String.eqb_spec (co_name y) n); [contradiction|reflexivity].
Qed.
Lemma modify_other ms : forall c out, modify_coords ms c = Ok out -> forall y, ~ In (co_name y) (map fst ms) -> In y (cu_aux out) <-> In y (cu_aux c).
Proof.
  induction ms as [|(n & vs & t) ms IH]; intros c out H y N.
  - cbn in H. apply Ok_inj' in H. subst out. reflexivity.
  - destruct (modify_cons n vs t ms c out H) as (c' & H1 & H2). cbn [map fst In] in N. rewrite (IH c' out H2 y) by tauto. apply (modify_one_other n vs t c c' H1). intro E. apply N. left. symmetry. exact E.
Qed.
Lemma modify_values ms : NoDup (map fst ms) -> forall c out, modify_coords ms c = Ok out -> forall n vs t, In (n, (vs, t)) ms -> (exists x, In x (coords c) /\ co_name x = n) ->
  exists v, vs = [v] /\ time_coords n = None /\ (forall x, In x (dim_coords c) -> co_name x <> n) /\ forall y, In y (cu_aux out) -> co_name y = n -> exists x, In x (cu_aux c) /\ co_name x = n /\ length (co_points x) = 1%nat /\ y = set_point v t x.
Proof.
  induction ms as [|(m & ws & u) ms IH]; intros ND c out H n vs t I0 (x & X & N); [destruct I0|]. cbn [map fst] in ND. inversion ND as [|? ? Nm ND']; subst. destruct (modify_cons m ws u ms c out H) as (c' & H1 & H2). pose proof (modify_one_inv m ws u c c' H1) as (D & _ & _ & _ & _ & _ & _ & _ & Ax). destruct I0 as [E|I0].
  - injection E as -> -> ->. destruct Ax as [(No & _)|(v & -> & T & Nd & L & Ea)]; [exfalso; exact (No x X eq_refl)|]. exists v. split; [reflexivity|]. split; [exact T|]. split; [exact Nd|]. intros y Y Ny. rewrite <- Ny in Nm. apply (modify_other ms c' out H2 y Nm) in Y. rewrite Ea in Y. apply in_map_iff in Y as (z & Ez & Z). destruct (String.eqb_spec (co_name z) (co_name x)) as [Q|Q].
    + exists z. split; [exact Z|]. split; [exact Q|]. split; [exact (L z Z Q)|]. symmetry. exact Ez.
    + subst z. contradiction.
  - assert (Nn : co_name x <> m). { intro Q. apply Nm. rewrite <- Q. apply in_map_iff. exists (co_name x, (vs, t)). split; [reflexivity|exact I0]. }
    destruct (IH ND' c' out H2 (co_name x) vs t I0) as (v & Ev & T & Nd & Fy).
    { exists x. split; [|reflexivity]. unfold coords in *. apply in_app_iff in X as [X|X]; apply in_app_iff; [left; unfold dim_coords in *; rewrite D; exact X|right]. apply (modify_one_other m ws u c c' H1 x Nn). exact X. }
    exists v. split; [exact Ev|]. split; [exact T|]. split; [unfold dim_coords in *; rewrite D in Nd; exact Nd|]. intros y Y Ny. destruct (Fy y Y Ny) as (z & Z & Nz & L & E). exists z. split; [|auto]. apply (modify_one_other m ws u c c' H1 z); [congruence|exact Z].
Qed.
(** If a value is given for a coordinate that is there (and is not to be removed), the request is for a single value, the coordinate is not one of time, and in the result it is a scalar coordinate with that value; bounds stay. *)
Theorem C94_modified conv stamp o c out : process conv stamp o c = Ok out -> NoDup (map fst (op_modify o)) -> forall n vs t, In (n, (vs, t)) (op_modify o) -> (exists x, In x (coords c) /\ co_name x = n) -> ~ In n (op_remove o) ->
  exists v, vs = [v] /\ ~ time_name n /\ ~ period_name n /\ (forall y, In y (dim_coords out) -> co_name y <> n) /\
  forall y, In y (coords out) -> co_name y = n -> (is_float t = true -> co_points y = [v]) /\ (forall w, t = Int64 -> v = inject_Z w -> co_points y = [v]) /\ exists x, In x (coords c) /\ co_name x = n /\ length (co_points x) = 1%nat /\ (is_float t = true -> co_bounds y = co_bounds x).
Proof.
  intros H ND n vs t I0 (x & X & N) Nr. destruct (process_inv _ _ _ _ _ H) as (c1 & c4 & f & R & S & _ & Di & _ & _ & _ & _ & _ & c2 & c3 & A2 & D2 & M & A3 & D3). destruct (types_inv _ _ S) as (_ & _ & _ & _ & _ & _ & _ & _ & G1 & G2). destruct (flag_keeps c c1 R) as (_ & _ & _ & K).
  assert (C2 : forall z, In z (coords c2) <-> In z (coords (remove_coords (op_remove o) (collapse c1)))). { intro z. unfold coords, dim_coords. rewrite A2, D2, Di. reflexivity. }
  assert (X2 : In x (coords c2)). { apply C2. apply remove_coords_in. split; [|congruence]. apply collapse_coords. apply K. exact X. }
  destruct (modify_values _ ND c2 c3 M n vs t I0 (ex_intro _ x (conj X2 N))) as (v & Ev & T & Nd & Fy). exists v. split; [exact Ev|]. destruct (time_coords_cases n) as [(_ & E)|[(_ & _ & E)|(T1 & T2 & _)]]; [congruence|congruence|]. split; [exact T1|]. split; [exact T2|].
  assert (ND4 : forall y, In y (dim_coords out) -> co_name y <> n).
  { intros y Y. unfold dim_coords in Y. apply in_flat_map in Y as (e & E & Y). destruct (Forall2_right _ _ _ G1 e E) as (d & D & Sd). destruct (dim_inv d e Sd) as (_ & _ & _ & M'). destruct (snd e) as [y'|] eqn:Ee; [|destruct Y]. destruct Y as [<-|[]]. destruct (snd d) as [z|] eqn:Ed; [|contradiction]. destruct (coord_inv _ _ M') as (Nz & _). rewrite Nz. apply Nd. unfold dim_coords. rewrite D2. apply in_flat_map. exists d. rewrite Ed. split; [exact D|left; reflexivity]. }
  split; [exact ND4|]. intros y Y Ny. unfold coords in Y. apply in_app_iff in Y as [Y|Y]; [exfalso; exact (ND4 y Y Ny)|]. destruct (Forall2_right _ _ _ G2 y Y) as (z & Zi & Sz). destruct (coord_inv _ _ Sz) as (Nz & _). rewrite <- A3 in Zi. destruct (Fy z Zi) as (w & W & Nw & L & Ez); [congruence|].
  assert (Wc : In w (coords c)). { apply K. apply (proj1 (collapse_coords c1 w)). apply (proj1 (remove_coords_in (op_remove o) (collapse c1) w)). apply C2. unfold coords. apply in_app_iff. right. exact W. }
  unfold standardise_coord, required_units in Sz. rewrite <- Nz, Ny, T in Sz. cbn [bind] in Sz. unfold required_type in Sz.
  assert (Rq : required_dtype (coord_object z) = if is_float t then Float32 else t). { unfold required_dtype, spec_of, coord_object. cbn [ob_coord ob_name ob_dtype]. rewrite <- Nz, Ny, T, Ez. reflexivity. }
  rewrite Rq in Sz. assert (Pz : co_points z = [v]) by (rewrite Ez; reflexivity). assert (Bz : co_bounds z = co_bounds w) by (rewrite Ez; reflexivity). split; [|split].
  - intro Ft. rewrite Ft in Sz. cbn [is_integer] in Sz. apply Ok_inj' in Sz. subst y. exact Pz.
  - intros k -> ->. cbn [is_float is_integer] in Sz. destruct (round_close (co_points z)) as [p|] eqn:Rc; [|discriminate]. cbn [bind] in Sz. destruct (match co_bounds z with None => _ | Some l => _ end) as [b|]; [|discriminate]. cbn [bind] in Sz. apply Ok_inj' in Sz. subst y. cbn [co_points]. apply round_near in Rc. rewrite Pz in Rc. inversion Rc as [|? q ? ? [_ Q] Rc']; subst. inversion Rc'; subst. cbn [map]. unfold cast. rewrite (Q k) by reflexivity. reflexivity.
  - exists w. split; [exact Wc|]. split; [exact Nw|]. split; [exact L|]. intro Ft. rewrite Ft in Sz. cbn [is_integer] in Sz. apply Ok_inj' in Sz. subst y. exact Bz.
Qed.
(** Every input coordinate that is not to be removed is in the result under its name. *)
Theorem C94_kept conv stamp o c out : process conv stamp o c = Ok out -> forall x, In x (coords c) -> ~ In (co_name x) (op_remove o) -> exists y, In y (coords out) /\ co_name y = co_name x.
Proof.
  intros H x X Nr. destruct (process_inv _ _ _ _ _ H) as (c1 & c4 & f & R & S & _ & Di & _ & _ & _ & _ & _ & c2 & c3 & A2 & D2 & M & A3 & D3). destruct (types_inv _ _ S) as (_ & _ & _ & _ & _ & _ & _ & _ & G1 & G2). destruct (flag_keeps c c1 R) as (_ & _ & _ & K).
  assert (X2 : In x (coords (remove_coords (op_remove o) (collapse c1)))). { apply remove_coords_in. split; [|exact Nr]. apply collapse_coords. apply K. exact X. }
  unfold coords in X2. apply in_app_iff in X2 as [X2|X2].
  - unfold dim_coords in X2. rewrite <- Di in X2. apply in_flat_map in X2 as (d & D & X2). destruct (snd d) as [x'|] eqn:Ed; [|destruct X2]. destruct X2 as [->|[]].
    assert (E : exists e, In e (cu_dims out) /\ standardise_dim d = Ok e). { clear -G1 D. induction G1 as [|a b l r P G IH]; [destruct D|]. destruct D as [->|D]; [exists b; split; [left; reflexivity|exact P]|]. destruct (IH D) as (e & E & Q). exists e. split; [right; exact E|exact Q]. }
    destruct E as (e & E & Sd). destruct (dim_inv d e Sd) as (_ & _ & _ & M'). rewrite Ed in M'. destruct (snd e) as [y|] eqn:Ee; [|contradiction]. exists y. split; [|exact (proj1 (coord_inv _ _ M'))]. unfold coords. apply in_app_iff. left. unfold dim_coords. apply in_flat_map. exists e. rewrite Ee. split; [exact E|left; reflexivity].
  - rewrite <- A2 in X2. destruct (modify_frame _ _ _ M) as (_ & _ & _ & _ & _ & _ & _ & _ & Fx). rewrite A3 in Fx.
    assert (E : exists z, In z (cu_aux c4) /\ co_name z = co_name x). { clear -Fx X2. induction Fx as [|a b l r P G IH]; [destruct X2|]. destruct X2 as [->|D]; [exists b; split; [left; reflexivity|exact (proj1 P)]|]. destruct (IH D) as (e & E & Q). exists e. split; [right; exact E|exact Q]. }
    destruct E as (z & Z & Nz). assert (E : exists y, In y (cu_aux out) /\ standardise_coord z = Ok y). { clear -G2 Z. induction G2 as [|a b l r P G IH]; [destruct Z|]. destruct Z as [->|D]; [exists b; split; [left; reflexivity|exact P]|]. destruct (IH D) as (e & E & Q). exists e. split; [right; exact E|exact Q]. }
    destruct E as (y & Y & Sy). exists y. split; [unfold coords; apply in_app_iff; right; exact Y|]. rewrite (proj1 (coord_inv _ _ Sy)). exact Nz.
Qed.
(** ** What it accepts *)
Definition plain (n : string) (l : list Q) (b : option (list (Q * Q))) : coord := {| co_name := n; co_points := l; co_bounds := b; co_dtype := Float64; co_bdtype := Float64; co_units := None |}.
Definition timed (n : string) (l : list Q) (u : units) (t : dtype) : coord := {| co_name := n; co_points := l; co_bounds := None; co_dtype := t; co_bdtype := t; co_units := Some u |}.
Definition small (ds : list dimension) (aux : list coord) (f : option flag) : scube := {| cu_name := "air_temperature"; cu_units := "degC"; cu_dtype := Float64; cu_dims := ds; cu_aux := aux; cu_flag := f; cu_data := fun _ => Some 10; cu_attributes := []; cu_methods := [] |}.
Definition kelvin (a b : string) : option (Q * Q) := if (String.eqb a "degC" && String.eqb b "K")%bool then Some (1, 27315 # 100) else None.
(** "Scalar coordinates" to remove may be those of dimensions: the dimension is left without one. *)
Theorem C94_removal_of_scalars_only_refuted : exists c out, process kelvin (fun s => s) {| op_name := None; op_units := None; op_remove := ["latitude"%string]; op_modify := []; op_attributes := [] |} c = Ok out /\ cu_dims c = [(2%nat, Some (plain "latitude" [0; 1] None))] /\ cu_dims out = [(2%nat, None)].
Proof. exists (small [(2%nat, Some (plain "latitude" [0; 1] None))] [] None). eexists. split; [vm_compute; reflexivity|]. split; reflexivity. Qed.
(** A modified point can end up outside its bounds. *)
Theorem C94_modified_within_bounds_refuted : exists c out, process kelvin (fun s => s) {| op_name := None; op_units := None; op_remove := []; op_modify := [("height"%string, ([100], Float64))]; op_attributes := [] |} c = Ok out /\ cu_aux c = [plain "height" [2] (Some [(1, 3)])] /\ exists y, cu_aux out = [y] /\ co_points y = [100] /\ co_bounds y = Some [(1, 3)].
Proof. exists (small [] [plain "height" [2] (Some [(1, 3)])] None). eexists. split; [vm_compute; reflexivity|]. split; [reflexivity|]. eexists. split; [reflexivity|]. split; reflexivity. Qed.
(** "realization (which is expected always to be a dimension)": a realization dimension of one is collapsed if there are status flags, otherwise not. *)
Definition one_realization (f : option flag) : scube := small [(1%nat, Some (plain "realization" [0] None)); (2%nat, Some (plain "latitude" [0; 1] None))] [] f.
Theorem C94_realization_stays_refuted : exists out out', process kelvin (fun s => s) no_options (one_realization None) = Ok out /\ map fst (cu_dims out) = [1; 2]%nat /\
  process kelvin (fun s => s) no_options (one_realization (Some {| fl_expected := true; fl_masked := false; fl_at := fun _ => false |})) = Ok out' /\ map fst (cu_dims out') = [2]%nat.
Proof. eexists. eexists. split; [vm_compute; reflexivity|]. split; [reflexivity|]. split; [vm_compute; reflexivity|reflexivity]. Qed.
(** A length of time beyond int32 is stored as another. *)
Theorem C94_period_wraps_refuted : exists c out y, process kelvin (fun s => s) no_options c = Ok out /\ cu_aux c = [timed "forecast_period" [1000000] {| un_seconds := 3600; un_epoch := None |} Float64] /\ cu_aux out = [y] /\ co_points y = [- 694967296].
Proof. exists (small [] [timed "forecast_period" [1000000] {| un_seconds := 3600; un_epoch := None |} Float64] None). eexists. eexists. split; [vm_compute; reflexivity|]. split; [reflexivity|]. split; reflexivity. Qed.
(** Minutes that are not whole seconds are refused; whole hours become seconds since 1970. *)
Example C94_case : let u := {| un_seconds := 3600; un_epoch := Some 0 |} in
  let c := small [(1%nat, Some (plain "realization" [0] None)); (1%nat, Some (plain "height" [2] None)); (2%nat, Some (plain "latitude" [0; 1] None))] [timed "time" [400000] u Float64; plain "pressure" [1000] None] None in
  (exists out, process kelvin (fun s => s) {| op_name := Some "screen_temperature"; op_units := Some "K"; op_remove := ["pressure"]; op_modify := [("height", ([3 # 2], Float64))]; op_attributes := [] |}%string c = Ok out /\ map fst (cu_dims out) = [1; 2]%nat /\ cu_name out = "screen_temperature"%string /\ cu_dtype out = Float32 /\
    map (fun y => (co_name y, map Qred (co_points y), co_dtype y)) (cu_aux out) = [("height"%string, [3 # 2], Float32); ("time"%string, [1440000000], Int64)] /\ option_map Qred (cu_data out [0; 1]%nat) = Some (5663 # 20)) /\
  process kelvin (fun s => s) no_options (small [] [timed "time" [1 # 7] {| un_seconds := 60; un_epoch := Some 0 |} Float64] None) = Err ValueError.
Proof. split; [eexists; split; [vm_compute; reflexivity|]; repeat split; vm_compute; reflexivity|vm_compute; reflexivity]. Qed.

Print Assumptions C94_standards.
Print Assumptions C94_idempotent.
Print Assumptions C94_data.
Print Assumptions C94_flags.
Print Assumptions C94_flags_realizations.
Print Assumptions C94_methods.
Print Assumptions C94_name.
Print Assumptions C94_units.
Print Assumptions C94_removed.
Print Assumptions C94_times.
Print Assumptions C94_periods.
Print Assumptions C94_modified.
Print Assumptions C94_kept.
Print Assumptions C94_removal_of_scalars_only_refuted.
Print Assumptions C94_modified_within_bounds_refuted.
Print Assumptions C94_realization_stays_refuted.
Print Assumptions C94_period_wraps_refuted.
