(** C80: the forecast period.  C81: a common cycle.  C82: data types and units. *)
From Coq Require Import Permutation.
From Verif Require Import Base Model_Percentiles Proofs_ProbPerc Proofs_Reordering Proofs_Temporal Props_Dist Model_Times.
Local Open Scope Q_scope.

(** ** C82 *)
(** What is asked of a cube or a coordinate. *)
Definition time_name (n : string) : Prop := In n ["time"; "forecast_reference_time"; "blend_time"]%string.
Definition period_name (n : string) : Prop := In n ["forecast_period"; "UTC_offset"]%string.
Definition same_units (a b : units) : Prop := un_seconds a == un_seconds b /\ match un_epoch a, un_epoch b with Some x, Some y => x == y | None, None => True | _, _ => False end.
Definition standard (o : object) : Prop :=
  (ob_coord o = true -> time_name (ob_name o) -> ob_dtype o = Int64 /\ (forall b, ob_bounds o = Some b -> b = Int64) /\ exists u, ob_units o = Some u /\ same_units u {| un_seconds := 1; un_epoch := Some 0 |}) /\
  (ob_coord o = true -> period_name (ob_name o) -> ob_dtype o = Int32 /\ (forall b, ob_bounds o = Some b -> b = Int32) /\ exists u, ob_units o = Some u /\ same_units u {| un_seconds := 1; un_epoch := None |}) /\
  (ob_coord o = false \/ (~ time_name (ob_name o) /\ ~ period_name (ob_name o)) ->
     ob_dtype o <> Float16 /\ ob_dtype o <> Float64 /\ (forall b, ob_coord o = true -> ob_bounds o = Some b -> b = ob_dtype o)).
Lemma dtype_eqb_iff a b : dtype_eqb a b = true <-> a = b.
Proof. destruct a, b; cbn; split; intro H; congruence. Qed.
Lemma units_eqb_iff a b : units_eqb a b = true <-> same_units a b.
Proof.
  unfold units_eqb, same_units. rewrite andb_true_iff, Qeqb_eq. destruct (un_epoch a), (un_epoch b); try rewrite Qeqb_eq; intuition discriminate.
Qed.
Lemma smem_iff n l : existsb (String.eqb n) l = true <-> In n l.
Proof. rewrite existsb_exists. split; [intros (x & X & E); apply String.eqb_eq in E; now subst|]. intro H. exists n. split; [exact H|apply String.eqb_refl]. Qed.
Lemma time_coords_cases n : (time_name n /\ time_coords n = Some (Int64, since_1970)) \/ (period_name n /\ ~ time_name n /\ time_coords n = Some (Int32, in_seconds)) \/ (~ time_name n /\ ~ period_name n /\ time_coords n = None).
Proof.
  unfold time_coords, time_name, period_name. rewrite <- !smem_iff. destruct (existsb (String.eqb n) ["time"; _; _]%string); [left; auto|]. destruct (existsb (String.eqb n) ["forecast_period"; _]%string); right; [left|right]; repeat split; auto; discriminate.
Qed.
Lemma disjoint_names n : time_name n -> period_name n -> False.
Proof. unfold time_name, period_name. cbn. intuition congruence. Qed.
Lemma standard_iff o : (check_dtype o && check_units o)%bool = true <-> standard o.
Proof.
  unfold check_dtype, check_units, standard, required_dtype, spec_of. rewrite !andb_true_iff, dtype_eqb_iff.
  destruct (ob_coord o) eqn:C.
  - destruct (time_coords_cases (ob_name o)) as [(T & E)|[(P & T & E)|(T & P & E)]]; rewrite E.
    + assert (NP : ~ period_name (ob_name o)) by (intro P; now apply (disjoint_names (ob_name o))). split.
      * intros ((D & B) & U). split; [|split; [intros _ P; contradiction|intros [X|[X _]]; [discriminate|contradiction]]]. intros _ _. split; [exact D|]. split.
        -- intros b Eb. rewrite Eb in B. now apply dtype_eqb_iff.
        -- destruct (ob_units o) as [u|]; [|discriminate]. exists u. split; [reflexivity|]. now apply units_eqb_iff.
      * intros (H & _). destruct (H eq_refl T) as (D & B & u & Eu & U). rewrite Eu. split; [split; [exact D|]|now apply units_eqb_iff]. destruct (ob_bounds o) as [b|]; [|reflexivity]. apply dtype_eqb_iff. now apply B.
    + split.
      * intros ((D & B) & U). split; [intros _ X; contradiction|]. split; [|intros [X|[_ X]]; [discriminate|contradiction]]. intros _ _. split; [exact D|]. split.
        -- intros b Eb. rewrite Eb in B. now apply dtype_eqb_iff.
        -- destruct (ob_units o) as [u|]; [|discriminate]. exists u. split; [reflexivity|]. now apply units_eqb_iff.
      * intros (_ & H & _). destruct (H eq_refl P) as (D & B & u & Eu & U). rewrite Eu. split; [split; [exact D|]|now apply units_eqb_iff]. destruct (ob_bounds o) as [b|]; [|reflexivity]. apply dtype_eqb_iff. now apply B.
    + split.
      * intros ((D & B) & _). split; [intros _ X; contradiction|]. split; [intros _ X; contradiction|]. intros _. split; [intro X; rewrite X in D; discriminate|]. split; [intro X; rewrite X in D; discriminate|]. intros b _ Eb. rewrite Eb in B. apply dtype_eqb_iff in B. now rewrite <- D in B.
      * intros (_ & _ & H). destruct (H (or_intror (conj T P))) as (A & A' & B). split; [split|reflexivity].
        -- destruct (ob_dtype o); cbn; congruence.
        -- destruct (ob_bounds o) as [b|]; [|reflexivity]. apply dtype_eqb_iff. rewrite (B b eq_refl eq_refl). destruct (ob_dtype o); cbn; congruence.
  - split.
    + intros ((D & _) & _). split; [discriminate|]. split; [discriminate|]. intros _. split; [intro X; rewrite X in D; discriminate|]. split; [intro X; rewrite X in D; discriminate|discriminate].
    + intros (_ & _ & H). destruct (H (or_introl eq_refl)) as (A & A' & _). split; [split|]; try reflexivity. destruct (ob_dtype o); cbn; congruence.
Qed.
(** The check passes exactly the cubes whose data and coordinates are all of the standard types and units. *)
Theorem C82_standards l : (check_mandatory_standards l = Ok tt <-> forall o, In o l -> standard o) /\ (check_mandatory_standards l = Ok tt \/ check_mandatory_standards l = Err ValueError).
Proof.
  unfold check_mandatory_standards. destruct (forallb _ l) eqn:F; (split; [|auto]).
  - split; [|reflexivity]. intros _ o O. rewrite forallb_forall in F. apply standard_iff. now apply F.
  - split; [discriminate|]. intro H. assert (X : forallb (fun o => (check_dtype o && check_units o)%bool) l = true) by (apply forallb_forall; intros o O; apply standard_iff; now apply H). congruence.
Qed.
(** A result of an operation is refused exactly if it is of a floating-point type other than float32. *)
Theorem C82_enforced o : ob_coord o = false -> (enforce_dtype o = Ok tt <-> ob_dtype o <> Float16 /\ ob_dtype o <> Float64) /\ (enforce_dtype o = Ok tt \/ enforce_dtype o = Err TypeError).
Proof.
  intro C. unfold enforce_dtype, check_dtype, required_dtype, spec_of. rewrite C. destruct (ob_dtype o); cbn; (split; [|auto]); split; intuition congruence.
Qed.
Example C82_case : standard {| ob_name := "time"; ob_coord := true; ob_dtype := Int64; ob_bounds := Some Int64; ob_units := Some {| un_seconds := 1; un_epoch := Some 0 |} |} /\
  ~ standard {| ob_name := "forecast_period"; ob_coord := true; ob_dtype := Int64; ob_bounds := None; ob_units := Some {| un_seconds := 1; un_epoch := None |} |} /\
  ~ standard {| ob_name := "height"; ob_coord := true; ob_dtype := Float32; ob_bounds := Some Float64; ob_units := None |}.
Proof. split; [apply standard_iff; reflexivity|]. split; intro H; apply standard_iff in H; discriminate. Qed.

(** ** C80 *)
(** Rounding to integers. *)
Theorem C80_round l : (forall out, round_close l = Ok out -> length out = length l /\ forall i, (i < length l)%nat -> Qabs (nth i l 0 - inject_Z (nth i out 0%Z)) <= 1 # 2 /\ Qabs (nth i l 0 - inject_Z (nth i out 0%Z)) <= (1 # 10000000) + (1 # 100000) * Qabs (inject_Z (nth i out 0%Z))) /\
  ((forall x, In x l -> exists z, x == inject_Z z) -> exists out, round_close l = Ok out /\ Forall2 (fun x z => x == inject_Z z) l out).
Proof.
  unfold round_close. split.
  - intros out. destruct (forallb near_integer l) eqn:F; [|discriminate]. intros [= <-]. split; [apply map_length|]. intros i Hi. rewrite (nth_map_lt _ l i 0 0%Z) by exact Hi. split.
    + rewrite Qabs_Qminus. apply rhe_near.
    + rewrite forallb_forall in F. specialize (F (nth i l 0) (nth_In _ _ Hi)). now apply Qleb_le in F.
  - intro W. assert (R : forall x, In x l -> x == inject_Z (round_half_even x)). { intros x X. destruct (W x X) as [z E]. rewrite E at 2. rewrite rhe_int. exact E. }
    assert (F : forallb near_integer l = true).
    { apply forallb_forall. intros x X. unfold near_integer. apply Qleb_le. specialize (R x X). assert (Z : x - inject_Z (round_half_even x) == 0) by lra. rewrite Z. change (Qabs 0) with 0. pose proof (Qabs_nonneg (inject_Z (round_half_even x))). lra. }
    rewrite F. eexists. split; [reflexivity|]. clear F W. induction l as [|x l IH]; constructor; [apply R; now left|]. apply IH. intros y Y. apply R. now right.
Qed.
(** A number far from an integer is not always refused. *)
Theorem C80_round_refuted : ~ (forall x out, round_close [x] = Ok out -> forall z, out = [z] -> Qabs (x - inject_Z z) <= 1 # 1000).
Proof. intro H. specialize (H (100001 # 2) [50000%Z] eq_refl 50000%Z eq_refl). vm_compute in H. apply H. reflexivity. Qed.

Definition whole (l : list Q) : Prop := forall x, In x l -> exists z, x == inject_Z z.
Definition ends_of (t : tcoord) : list Q := match tm_bounds t with Some l => map fst l ++ map snd l | None => [] end.
(** A coordinate of an integer type holds integers. *)
Definition typed (t : tcoord) : Prop := (tm_dtype t = Int64 -> whole (tm_points t)) /\ (tm_bdtype t = Int64 -> whole (ends_of t)).
(** The length of time fits an int32. *)
Definition fits32 (x : Q) : Prop := -(2147483648 # 1) <= x /\ x <= 2147483647 # 1.
Definition needed (c : tcube) (force : bool) : Prop := tc_period c = None \/ force = true.
Definition reference_of (c : tcube) : option tcoord := match tc_frt c with Some f => Some f | None => tc_blend c end.

Lemma int32_id z : fits32 (inject_Z z) -> int32 z = z.
Proof.
  intros [A B]. change (-(2147483648 # 1)) with (inject_Z (-2147483648)) in A. change (2147483647 # 1) with (inject_Z 2147483647) in B. rewrite <- Zle_Qle in A, B. unfold int32. rewrite Z.mod_small by lia. lia.
Qed.
Lemma rounded_whole l : whole l -> exists out, round_close l = Ok out /\ Forall2 (fun x z => x == inject_Z z) l out.
Proof. apply C80_round. Qed.
Lemma fits_eq x z : fits32 x -> x == inject_Z z -> int32 z = z.
Proof. intros [A B] E. apply int32_id. split; rewrite <- E; assumption. Qed.
Lemma back l out : Forall2 (fun x z => x == inject_Z z) l out -> (forall x, In x l -> fits32 x) -> Forall2 Qeq (map (fun z => inject_Z (int32 z)) out) l.
Proof.
  induction 1 as [|x z l out E H IH]; intro F; cbn [map]; constructor.
  - rewrite (fits_eq x z) by (auto; apply F; now left). symmetry. exact E.
  - apply IH. intros y Y. apply F. now right.
Qed.
Lemma standard_time c t : tc_time c = Some t -> check_mandatory_standards (objects c) = Ok tt -> tm_dtype t = Int64 /\ (tm_bounds t <> None -> tm_bdtype t = Int64) /\ forall x, moment (tm_units t) x == x.
Proof.
  intros T H. destruct (C82_standards (objects c)) as [S' _]. pose proof (proj1 S' H) as S1. clear S' H.
  assert (I' : In {| ob_name := "time"; ob_coord := true; ob_dtype := tm_dtype t; ob_bounds := match tm_bounds t with Some _ => Some (tm_bdtype t) | None => None end; ob_units := Some (tm_units t) |} (objects c)) by (unfold objects; rewrite T; cbn; auto).
  destruct (S1 _ I') as (H & _). destruct (H eq_refl) as (D & B & u & Eu & U); [cbn; auto|]. cbn in D, B, Eu. split; [exact D|]. split; [intro N; apply B; destruct (tm_bounds t); [reflexivity|congruence]|].
  injection Eu as <-. intro x. unfold moment. destruct U as [U1 U2]. cbn in U1, U2. destruct (un_epoch (tm_units t)); [|destruct U2]. rewrite U1, U2. ring.
Qed.
Lemma standard_reference c r : reference_of c = Some r -> check_mandatory_standards (objects c) = Ok tt -> tm_dtype r = Int64 /\ forall x, moment (tm_units r) x == x.
Proof.
  intros T H. destruct (C82_standards (objects c)) as [S' _]. pose proof (proj1 S' H) as S1. clear S' H.
  assert (I' : exists n, time_name n /\ In {| ob_name := n; ob_coord := true; ob_dtype := tm_dtype r; ob_bounds := match tm_bounds r with Some _ => Some (tm_bdtype r) | None => None end; ob_units := Some (tm_units r) |} (objects c)).
  { unfold reference_of in T. destruct (tc_frt c) as [f|] eqn:F.
    - injection T as ->. exists "forecast_reference_time"%string. split; [cbn; auto|]. unfold objects. rewrite F. right. apply in_app_iff. right. apply in_app_iff. left. now left.
    - exists "blend_time"%string. split; [cbn; auto|]. unfold objects. rewrite T. right. apply in_app_iff. right. apply in_app_iff. right. apply in_app_iff. left. now left. }
  destruct I' as (n & N & I'). destruct (S1 _ I') as (H & _). destruct (H eq_refl N) as (D & _ & u & Eu & U). cbn in D, Eu. split; [exact D|]. injection Eu as <-. intro x. unfold moment. destruct U as [U1 U2]. cbn in U1, U2. destruct (un_epoch (tm_units r)); [|destruct U2]. rewrite U1, U2. ring.
Qed.
Lemma moment_map u l : (forall x, moment u x == x) -> Forall2 Qeq (map (moment u) l) l.
Proof. intro H. induction l; constructor; auto. Qed.
Lemma whole_eq l l' : Forall2 Qeq l l' -> whole l' -> whole l.
Proof. intros F W x X. apply (In_nth _ _ 0) in X as (i & Hi & <-). assert (L := Base.Forall2_len _ _ _ F). destruct (W (nth i l' 0)) as [z Z]; [apply nth_In; lia|]. exists z. rewrite <- Z. clear -F Hi. revert i Hi. induction F; intros [|i] Hi; cbn in *; try lia; auto. apply IHF. lia. Qed.
Lemma whole_sub l y : whole l -> whole [y] -> whole (map (fun x => x - y) l).
Proof.
  intros W Y x X. apply in_map_iff in X as (u & <- & U). destruct (W u U) as [a A]. destruct (Y y (or_introl eq_refl)) as [b B]. exists (a - b)%Z. rewrite A, B, injZ_sub. reflexivity.
Qed.
Lemma forall2_nth_q l l' i : Forall2 Qeq l l' -> (i < length l)%nat -> nth i l 0 == nth i l' 0.
Proof. intro F. revert i. induction F; intros [|i] Hi; cbn in *; try lia; auto. apply IHF. lia. Qed.
Lemma fits_comp x y : x == y -> fits32 x -> fits32 y.
Proof. unfold fits32. intros E [A B]. rewrite <- E. auto. Qed.
(** The lengths of time from one moment. *)
Lemma leads_rounded u v pts r : (forall x, moment u x == x) -> (forall x, moment v x == x) -> whole pts -> whole [r] -> (forall x, In x pts -> fits32 (x - r)) ->
  exists out, round_close (map (fun x => x - moment v r) (map (moment u) pts)) = Ok out /\ length out = length pts /\ forall i, (i < length pts)%nat -> inject_Z (int32 (nth i out 0%Z)) == nth i pts 0 - r.
Proof.
  intros U V W R F. set (lead := map (fun x => x - moment v r) (map (moment u) pts)).
  assert (L : length lead = length pts) by (unfold lead; now rewrite !map_length).
  assert (E : forall i, (i < length pts)%nat -> nth i lead 0 == nth i pts 0 - r).
  { intros i Hi. unfold lead. rewrite (nth_map_lt _ (map (moment u) pts) i 0 0) by (rewrite map_length; lia). rewrite (nth_map_lt _ pts i 0 0) by exact Hi. rewrite U, V. reflexivity. }
  assert (WL : whole lead).
  { intros x X. apply (In_nth _ _ 0) in X as (i & Hi & <-). rewrite L in Hi. destruct (whole_sub pts r W R (nth i pts 0 - r)) as [z Z]; [apply in_map_iff; exists (nth i pts 0); split; [reflexivity|now apply nth_In]|]. exists z. rewrite E by exact Hi. exact Z. }
  destruct (rounded_whole _ WL) as (out & O & F2). exists out. split; [exact O|]. assert (Lo := Base.Forall2_len _ _ _ F2). split; [lia|]. intros i Hi.
  assert (Z : nth i lead 0 == inject_Z (nth i out 0%Z)). { clear -F2 Hi L. revert i Hi. rewrite <- L. clear L. induction F2; intros [|i] Hi; cbn in *; try lia; auto. apply IHF2. lia. }
  rewrite (fits_eq (nth i lead 0)); [rewrite <- Z; now apply E| |exact Z]. apply (fits_comp (nth i pts 0 - r)); [symmetry; now apply E|]. apply F. now apply nth_In.
Qed.
(** What the forecast period should be, for a reference time r. *)
Definition lead_times (t : tcoord) (r : Q) (p : tcoord) : Prop :=
  tm_units p = in_seconds /\ tm_dtype p = Int32 /\
  length (tm_points p) = length (tm_points t) /\ (forall i, (i < length (tm_points t))%nat -> nth i (tm_points p) 0 == nth i (tm_points t) 0 - r) /\
  match tm_bounds t with
  | None => tm_bounds p = None
  | Some l => exists b, tm_bounds p = Some b /\ length b = length l /\ forall i, (i < length l)%nat -> fst (nth i b (0, 0)) == fst (nth i l (0, 0)) - r /\ snd (nth i b (0, 0)) == snd (nth i l (0, 0)) - r
  end.
Definition in_range (t : tcoord) (r : Q) : Prop := forall x, In x (tm_points t ++ ends_of t) -> fits32 (x - r).
Definition well_formed (t : tcoord) : Prop := match tm_bounds t with Some l => length l = length (tm_points t) | None => True end.
Lemma combine_nth_q (lo hi : list Z) n : length lo = n -> length hi = n -> forall i, (i < n)%nat ->
  nth i (map (fun q => (inject_Z (int32 (fst q)), inject_Z (int32 (snd q)))) (combine lo hi)) (0, 0) = (inject_Z (int32 (nth i lo 0%Z)), inject_Z (int32 (nth i hi 0%Z))).
Proof.
  intros A B i Hi. rewrite (nth_map_lt (fun q => (inject_Z (int32 (fst q)), inject_Z (int32 (snd q)))) (combine lo hi) i (0%Z, 0%Z) (0, 0)) by (rewrite combine_length; lia). rewrite combine_nth by lia. reflexivity.
Qed.
Lemma calculated t f r dim : (forall x, moment (tm_units t) x == x) -> (forall x, moment (tm_units f) x == x) -> tm_points f = [r] -> whole (tm_points t) -> whole (ends_of t) -> whole [r] -> in_range t r -> well_formed t ->
  (dim = false \/ (length (tm_points t) <= 1)%nat) -> exists p, calculate_forecast_period t f dim = Ok p /\ lead_times t r p.
Proof.
  intros U V Pf W We R F Wf Dm. unfold calculate_forecast_period. rewrite Pf. cbn [map].
  set (at_ := moment (tm_units t)). set (y := moment (tm_units f) r).
  assert (BS : broadcast_sub (map at_ (tm_points t)) [y] = Ok (map (fun x => x - y) (map at_ (tm_points t)))) by (unfold broadcast_sub; destruct (map at_ (tm_points t)) as [|? [|? ?]]; reflexivity).
  rewrite BS. cbn [bind].
  destruct (leads_rounded (tm_units t) (tm_units f) (tm_points t) r U V W R) as (out & O & Lo & Eo). { intros x X. apply F. apply in_app_iff. now left. }
  fold at_ in O. fold y in O.
  assert (DC : forall b, (dim && negb (dimcoord_ok (map (fun x => x - y) (map at_ (tm_points t))) b))%bool = false).
  { intro b. destruct Dm as [->|L]; [reflexivity|]. unfold dimcoord_ok. rewrite !map_length. apply Nat.leb_le in L. rewrite L. apply andb_false_r. }
  unfold well_formed in Wf. unfold ends_of in We. unfold in_range, ends_of in F. unfold lead_times. destruct (tm_bounds t) as [l|] eqn:B.
  - cbn [bounds_sub bind]. rewrite !map_length, Wf, Nat.eqb_refl. cbn [bind]. rewrite DC. cbn [bind]. rewrite O. cbn [bind].
    destruct (leads_rounded (tm_units t) (tm_units f) (map fst l) r U V) as (lo & Ol & Ll & El). { intros x X. apply We. apply in_app_iff. now left. } { exact R. } { intros x X. apply F. apply in_app_iff. right. apply in_app_iff. now left. }
    destruct (leads_rounded (tm_units t) (tm_units f) (map snd l) r U V) as (hi & Oh & Lh & Eh). { intros x X. apply We. apply in_app_iff. now right. } { exact R. } { intros x X. apply F. apply in_app_iff. right. apply in_app_iff. now right. }
    fold at_ in Ol, Oh. fold y in Ol, Oh. rewrite map_length in Ll, Lh. rewrite map_length in El, Eh.
    assert (M1 : map fst (map (fun p : Q * Q => (fst p - y, snd p - y)) (map (fun p : Q * Q => (at_ (fst p), at_ (snd p))) l)) = map (fun x => x - y) (map at_ (map fst l))) by (rewrite !map_map; reflexivity).
    assert (M2 : map snd (map (fun p : Q * Q => (fst p - y, snd p - y)) (map (fun p : Q * Q => (at_ (fst p), at_ (snd p))) l)) = map (fun x => x - y) (map at_ (map snd l))) by (rewrite !map_map; reflexivity).
    rewrite M1, M2, Ol, Oh. cbn [bind]. eexists. split; [reflexivity|]. cbn [tm_units tm_dtype tm_points tm_bounds option_map]. split; [reflexivity|]. split; [reflexivity|]. rewrite map_length. split; [exact Lo|]. split.
    + intros i Hi. rewrite (nth_map_lt _ out i 0%Z 0) by lia. now apply Eo.
    + eexists. split; [reflexivity|]. rewrite map_length, combine_length, Ll, Lh, Nat.min_id. split; [exact Wf|]. intros i Hi. rewrite <- Wf in Hi. rewrite (combine_nth_q lo hi (length l)) by assumption. cbn [fst snd]. rewrite El, Eh by exact Hi.
      rewrite (nth_map_lt fst l i (0, 0) 0), (nth_map_lt snd l i (0, 0) 0) by exact Hi. split; reflexivity.
  - cbn [bind]. rewrite DC. cbn [bind]. rewrite O. cbn [bind option_map]. eexists. split; [reflexivity|]. cbn [tm_units tm_dtype tm_points tm_bounds option_map]. split; [reflexivity|]. split; [reflexivity|]. rewrite map_length. split; [exact Lo|]. split; [|reflexivity].
    intros i Hi. rewrite (nth_map_lt _ out i 0%Z 0) by lia. now apply Eo.
Qed.
(** References that can be used together. *)
Definition references_agree (c : tcube) : Prop := forall f b, tc_frt c = Some f -> tc_blend c = Some b -> exists x y, tm_points f = [x] /\ tm_points b = [y] /\ x == y.
Lemma agree_iff c : match tc_frt c, tc_blend c with Some f, Some b => match tm_points f, tm_points b with [x], [y] => if x =? y then Ok tt else Err ValueError | _, _ => Err ValueError end | _, _ => Ok tt end = Ok tt <-> references_agree c.
Proof.
  unfold references_agree. destruct (tc_frt c) as [f|], (tc_blend c) as [b|]; try (split; [intros _; discriminate|reflexivity]).
  - split.
    + destruct (tm_points f) as [|x [|? ?]] eqn:F, (tm_points b) as [|y [|? ?]] eqn:B; try discriminate. destruct (x =? y) eqn:E; [|discriminate]. intros _ f' b' [= <-] [= <-]. exists x, y. split; [exact F|]. split; [exact B|]. now apply Qeqb_eq.
    + intro H. destruct (H f b eq_refl eq_refl) as (x & y & -> & -> & E). apply Qeqb_eq in E. now rewrite E.
Qed.
Lemma agree_err c : (match tc_frt c, tc_blend c with Some f, Some b => match tm_points f, tm_points b with [x], [y] => if x =? y then Ok tt else Err ValueError | _, _ => Err ValueError end | _, _ => Ok tt end) = Ok tt \/
  (match tc_frt c, tc_blend c with Some f, Some b => match tm_points f, tm_points b with [x], [y] => if x =? y then Ok tt else Err ValueError | _, _ => Err ValueError end | _, _ => Ok tt end) = Err ValueError.
Proof. destruct (tc_frt c) as [f|]; auto. destruct (tc_blend c) as [b|]; auto. destruct (tm_points f) as [|x [|? ?]]; auto; destruct (tm_points b) as [|y [|? ?]]; auto. destruct (x =? y); auto. Qed.

(** A forecast period that is there is taken as it is. *)
Theorem C80_kept c p : tc_period c = Some p -> references_agree c -> forecast_period_coord c false = Ok p.
Proof. intros P A. apply agree_iff in A. unfold forecast_period_coord. rewrite A, P. reflexivity. Qed.
(** Otherwise it is the time since the reference time, with its bounds, in whole seconds. *)
Theorem C80_calculated c force t f r : needed c force -> references_agree c -> tc_time c = Some t -> reference_of c = Some f -> tm_points f = [r] -> typed t -> typed f -> well_formed t -> in_range t r ->
  (forall o, In o (objects c) -> standard o) -> (forall p, tc_period c = Some p -> tm_dim p = false \/ (length (tm_points t) <= 1)%nat) ->
  exists p, forecast_period_coord c force = Ok p /\ lead_times t r p.
Proof.
  intros N A T F Pf Ty Tf Wf Rg S' Dm. apply agree_iff in A. unfold forecast_period_coord. rewrite A. cbn [bind]. fold (reference_of c). rewrite T, F.
  assert (Ck : check_mandatory_standards (objects c) = Ok tt) by (now apply C82_standards). destruct (standard_time c t T Ck) as (D & Db & U). destruct (standard_reference c f F Ck) as (D' & V).
  set (dim := match tc_period c with Some p => tm_dim p | None => false end).
  destruct (calculated t f r dim U V Pf) as (p & Cp & Lp).
  - now apply Ty.
  - unfold ends_of. destruct (tm_bounds t) eqn:B; [|intros x []]. assert (X := proj2 Ty (Db ltac:(discriminate))). unfold ends_of in X. now rewrite B in X.
  - destruct Tf as [Tf _]. rewrite <- Pf. now apply Tf.
  - exact Rg.
  - exact Wf.
  - unfold dim. destruct (tc_period c) as [q|]; [now apply Dm|now left].
  - rewrite Ck, Cp. cbn [bind]. destruct N as [->| ->]; [|destruct (tc_period c)]; (eexists; split; [reflexivity|exact Lp]).
Qed.
(** What is refused. *)
Theorem C80_refused c force : (~ references_agree c -> forecast_period_coord c force = Err ValueError) /\
  (references_agree c -> needed c force -> (forecast_period_coord c force = Err CoordinateNotFoundError <-> tc_time c = None \/ reference_of c = None)) /\
  (references_agree c -> needed c force -> tc_time c <> None -> reference_of c <> None -> (exists o, In o (objects c) /\ ~ standard o) -> forecast_period_coord c force = Err ValueError).
Proof.
  unfold forecast_period_coord. fold (reference_of c). pose proof (agree_iff c) as A. pose proof (agree_err c) as E. set (chk := match tc_frt c with Some _ => _ | None => _ end) in *. split; [|split].
  - intro N. destruct E as [E|E]; [exfalso; apply N; now apply A|]. rewrite E. reflexivity.
  - intros G N. apply A in G. rewrite G. cbn [bind].
    assert (NC : forall t r0 d (k : tcoord -> tcoord), (let* _ := check_mandatory_standards (objects c) in let* p0 := calculate_forecast_period t r0 d in Ok (k p0)) <> Err CoordinateNotFoundError).
    { intros t r0 d k. destruct (proj2 (C82_standards (objects c))) as [->| ->]; cbn [bind]; [|discriminate]. destruct (calculate_forecast_period t r0 d) as [p0|e] eqn:Q; cbn [bind]; [discriminate|]. intros [= ->]. revert Q. unfold calculate_forecast_period, broadcast_sub, bounds_sub, round_close.
      repeat (match goal with |- context [match ?x with _ => _ end] => destruct x; cbn [bind] end; try discriminate). }
    destruct (tc_time c) as [t|] eqn:T; [destruct (reference_of c) as [r0|] eqn:R|].
    + split; [|intros [X|X]; discriminate]. intro X. exfalso. revert X. destruct N as [->| ->]; [|destruct (tc_period c)]; apply NC.
    + split; [auto|]. intros _. destruct N as [->| ->]; [|destruct (tc_period c)]; reflexivity.
    + split; [auto|]. intros _. destruct N as [->| ->]; [|destruct (tc_period c)]; reflexivity.
  - intros G N T R (o & O & NS). apply A in G. rewrite G. cbn [bind].
    assert (Ck : check_mandatory_standards (objects c) = Err ValueError). { destruct (C82_standards (objects c)) as [I' [K|K]]; [exfalso; apply NS; now apply (proj1 I' K)|exact K]. }
    destruct (tc_time c); [|congruence]. destruct (reference_of c); [|congruence]. rewrite Ck. destruct N as [->| ->]; [reflexivity|]. destruct (tc_period c); reflexivity.
Qed.
(** A calculated period varies along the dimension the time varies along, is a dimension coordinate where the period
    it replaces was one, and keeps the attributes of that period. *)
Theorem C80_kind c force t p : tc_time c = Some t -> needed c force -> forecast_period_coord c force = Ok p ->
  tm_spans p = tm_spans t /\ tm_bdtype p = Int32 /\
  match tc_period c with Some q => tm_dim p = tm_dim q /\ tm_attributes p = tm_attributes q | None => tm_dim p = false /\ tm_attributes p = [] end.
Proof.
  intros T N. unfold forecast_period_coord. fold (reference_of c). destruct (agree_err c) as [->| ->]; cbn [bind]; [|discriminate]. rewrite T.
  assert (K : forall u f d q, calculate_forecast_period u f d = Ok q -> tm_spans q = tm_spans u /\ tm_bdtype q = Int32 /\ tm_dim q = d).
  { intros u f d q. unfold calculate_forecast_period. repeat (match goal with |- context [bind ?x _] => destruct x; cbn [bind]; [|discriminate] end). intro X. apply Ok_inj in X. subst q. repeat split. }
  destruct N as [E| ->].
  - rewrite E. destruct (reference_of c) as [f|]; [|discriminate]. destruct (check_mandatory_standards (objects c)); cbn [bind]; [|discriminate]. destruct (calculate_forecast_period t f false) as [q|] eqn:Q; cbn [bind]; [|discriminate].
    intro X. apply Ok_inj in X. subst p. destruct (K _ _ _ _ Q) as (A & B & C). cbn. auto.
  - destruct (tc_period c) as [o|]; (destruct (reference_of c) as [f|]; [|discriminate]); (destruct (check_mandatory_standards (objects c)); cbn [bind]; [|discriminate]).
    + destruct (calculate_forecast_period t f (tm_dim o)) as [q|] eqn:Q; cbn [bind]; [|discriminate]. intro X. apply Ok_inj in X. subst p. destruct (K _ _ _ _ Q) as (A & B & C). cbn. auto.
    + destruct (calculate_forecast_period t f false) as [q|] eqn:Q; cbn [bind]; [|discriminate]. intro X. apply Ok_inj in X. subst p. destruct (K _ _ _ _ Q) as (A & B & C). cbn. auto.
Qed.
(** With a reference time for each time the bounds are wrong: those of two times are taken from different references. *)
Definition plain (l : list Q) (b : option (list (Q * Q))) : tcoord := {| tm_points := l; tm_bounds := b; tm_units := since_1970; tm_dtype := Int64; tm_bdtype := Int64; tm_dim := true; tm_spans := true; tm_attributes := [] |}.
Definition two_cycles : tcube := {| tc_time := Some (plain [3600; 7200] (Some [(0, 3600); (3600, 7200)])); tc_frt := Some (plain [0; 3600] None); tc_blend := None; tc_period := None; tc_dtype := Float32; tc_others := []; tc_data := [] |}.
Theorem C80_bounds_refuted : ~ (forall c t f p b l i, tc_time c = Some t -> tc_frt c = Some f -> length (tm_points t) = length (tm_points f) -> forecast_period_coord c true = Ok p -> tm_bounds p = Some b -> tm_bounds t = Some l -> (i < length l)%nat ->
  snd (nth i b (0, 0)) == snd (nth i l (0, 0)) - nth i (tm_points f) 0).
Proof.
  intro H. specialize (H two_cycles (plain [3600; 7200] (Some [(0, 3600); (3600, 7200)])) (plain [0; 3600] None)).
  pose (p := match forecast_period_coord two_cycles true with Ok p => p | Err _ => plain [] None end).
  specialize (H p (match tm_bounds p with Some b => b | None => [] end) [(0, 3600); (3600, 7200)] 0%nat eq_refl eq_refl eq_refl). assert (X : forecast_period_coord two_cycles true = Ok p) by (vm_compute; reflexivity). specialize (H X). vm_compute in H. specialize (H eq_refl eq_refl (Nat.lt_0_succ _)). discriminate.
Qed.
(** A length of time that an int32 cannot hold comes out wrong, without an error. *)
Theorem C80_range_refuted : ~ (forall c t f x r p, tc_time c = Some t -> tc_frt c = Some f -> tm_points t = [x] -> tm_points f = [r] -> forecast_period_coord c true = Ok p -> nth 0 (tm_points p) 0 == x - r).
Proof.
  intro H. pose (c := {| tc_time := Some (plain [2147483648] None); tc_frt := Some (plain [0] None); tc_blend := None; tc_period := None; tc_dtype := Float32; tc_others := []; tc_data := [] |}).
  pose (p := match forecast_period_coord c true with Ok p => p | Err _ => plain [] None end). assert (X : forecast_period_coord c true = Ok p) by (vm_compute; reflexivity).
  specialize (H c _ _ _ _ p eq_refl eq_refl eq_refl eq_refl X). vm_compute in H. discriminate.
Qed.
(** Two reference times are compared as numbers: in different units the same moment is refused. *)
Theorem C80_references_refuted : ~ (forall c p f b x y, tc_period c = Some p -> tc_frt c = Some f -> tc_blend c = Some b -> tm_points f = [x] -> tm_points b = [y] -> moment (tm_units f) x == moment (tm_units b) y -> exists q, forecast_period_coord c false = Ok q).
Proof.
  intro H. pose (hrs := {| tm_points := [1]; tm_bounds := None; tm_units := {| un_seconds := 3600; un_epoch := Some 0 |}; tm_dtype := Int64; tm_bdtype := Int64; tm_dim := true; tm_spans := false; tm_attributes := [] |}).
  destruct (H {| tc_time := None; tc_frt := Some hrs; tc_blend := Some (plain [3600] None); tc_period := Some hrs; tc_dtype := Float32; tc_others := []; tc_data := [] |} hrs hrs (plain [3600] None) 1 3600 eq_refl eq_refl eq_refl eq_refl eq_refl) as [q Q]; [reflexivity|]. vm_compute in Q. discriminate.
Qed.

(** ** C81 *)
(** A cube that can be given the cycle T: it has a time and a reference time, its blend time (if any) is T, and what
    is not replaced is of the standard types and units. *)
Definition ready (c : tcube) (T : Q) : Prop :=
  (exists t, tc_time c = Some t /\ typed t /\ well_formed t /\ in_range t T) /\ tc_frt c <> None /\
  (forall b, tc_blend c = Some b -> exists y, tm_points b = [y] /\ y == T) /\
  (forall o, In o ({| ob_name := ""; ob_coord := false; ob_dtype := tc_dtype c; ob_bounds := None; ob_units := None |} :: as_object "time" (tc_time c) ++ as_object "blend_time" (tc_blend c) ++ tc_others c) -> standard o).
(** The cube as it was except for the cycle: same times, data and other coordinates, reference time T, and the forecast
    period measured from T. *)
Definition on_cycle (c c' : tcube) (T : Q) : Prop :=
  tc_time c' = tc_time c /\ tc_data c' = tc_data c /\ tc_blend c' = tc_blend c /\ tc_others c' = tc_others c /\ tc_dtype c' = tc_dtype c /\
  (exists f x, tc_frt c' = Some f /\ tm_points f = [x] /\ x == T /\ tm_units f = since_1970 /\ tm_dtype f = Int64 /\ tm_spans f = false) /\
  (exists t p, tc_time c = Some t /\ tc_period c' = Some p /\ lead_times t T p).
Lemma created T : whole [T] -> exists z, T == inject_Z z /\ create_frt T = Ok {| tm_points := [inject_Z z]; tm_bounds := None; tm_units := since_1970; tm_dtype := Int64; tm_bdtype := Int64; tm_dim := true; tm_spans := false; tm_attributes := [] |}.
Proof.
  intro W. destruct (rounded_whole _ W) as (out & O & F). inversion F as [|? z ? ? E F']; subst. inversion F'; subst. exists z. split; [exact E|]. unfold create_frt. rewrite O. reflexivity.
Qed.
Lemma lead_times_comp t r r' p : r == r' -> lead_times t r p -> lead_times t r' p.
Proof.
  intros E (A & B & C & D & F). split; [exact A|]. split; [exact B|]. split; [exact C|]. split; [intros i Hi; rewrite <- E; now apply D|]. destruct (tm_bounds t) as [l|]; [|exact F]. destruct F as (b & Eb & L & V). exists b. split; [exact Eb|]. split; [exact L|]. intros i Hi. rewrite <- E. now apply V.
Qed.
Theorem C81_cycle c T : whole [T] -> ready c T -> exists c', set_cycle T c = Ok c' /\ on_cycle c c' T.
Proof.
  intros W ((t & Et & Ty & Wf & Rg) & Nf & Bl & St). destruct (created T W) as (z & Ez & Cr). unfold set_cycle. rewrite Cr. cbn [bind]. destruct (tc_frt c) as [f0|]; [|congruence].
  set (f := {| tm_points := [inject_Z z]; tm_bounds := None; tm_units := since_1970; tm_dtype := Int64; tm_bdtype := Int64; tm_dim := true; tm_spans := false; tm_attributes := [] |}).
  set (c1 := {| tc_time := tc_time c; tc_frt := Some f; tc_blend := tc_blend c; tc_period := None; tc_dtype := tc_dtype c; tc_others := tc_others c; tc_data := tc_data c |}).
  destruct (C80_calculated c1 true t f (inject_Z z)) as (p & P & L).
  - now right.
  - intros f1 b [= <-] B. destruct (Bl b B) as (y & Y & E). exists (inject_Z z), y. split; [reflexivity|]. split; [exact Y|]. now rewrite <- Ez, E.
  - exact Et.
  - reflexivity.
  - reflexivity.
  - exact Ty.
  - split; intros _ x X; [|destruct X]. destruct X as [<-|[]]. exists z. reflexivity.
  - exact Wf.
  - intros x X. apply (fits_comp (x - T)); [now rewrite Ez|now apply Rg].
  - intros o O. unfold objects in O. cbn [tc_dtype tc_time tc_frt tc_blend tc_period tc_others c1] in O. destruct O as [O|O]; [apply St; now left|]. rewrite !in_app_iff in O. destruct O as [O|[O|[O|[O|O]]]].
    + apply St. right. rewrite !in_app_iff. auto.
    + cbn [as_object] in O. destruct O as [<-|[]]. apply standard_iff. reflexivity.
    + apply St. right. rewrite !in_app_iff. auto.
    + destruct O.
    + apply St. right. rewrite !in_app_iff. auto.
  - discriminate.
  - rewrite P. cbn [bind]. eexists. split; [reflexivity|]. unfold on_cycle. cbn. do 5 (split; [reflexivity|]). split.
    + exists f, (inject_Z z). split; [reflexivity|]. split; [reflexivity|]. split; [now symmetry|]. repeat split.
    + exists t, p. split; [exact Et|]. split; [reflexivity|]. apply (lead_times_comp t (inject_Z z)); [now symmetry|exact L].
Qed.
(** The latest reference time of the cubes. *)
(** A blend time is added once, and nothing else changes. *)
Theorem C81_blend_time c T : whole [T] ->
  (tc_blend c <> None -> add_blend_time c T = Err ValueError) /\
  (tc_blend c = None -> exists c' b, add_blend_time c T = Ok c' /\ tc_blend c' = Some b /\ Forall2 Qeq (tm_points b) [T] /\ tm_units b = since_1970 /\ tm_dtype b = Int64 /\ tm_spans b = false /\ tm_bounds b = None /\
     tc_time c' = tc_time c /\ tc_frt c' = tc_frt c /\ tc_period c' = tc_period c /\ tc_dtype c' = tc_dtype c /\ tc_others c' = tc_others c /\ tc_data c' = tc_data c).
Proof.
  intro W. destruct (rounded_whole [T] W) as (out & O & F). unfold add_blend_time, create_frt. rewrite O. cbn [bind]. split; intro B.
  - destruct (tc_blend c); [reflexivity|congruence].
  - rewrite B. eexists. eexists. split; [reflexivity|]. cbn. split; [reflexivity|]. split; [|repeat split].
    inversion F as [|? z ? l E N]; subst. inversion N; subst. constructor; [now symmetry|constructor].
Qed.
Definition reference_moment (c : tcube) (m : Q) : Prop := exists f x, tc_frt c = Some f /\ tm_points f = [x] /\ tm_spans f = false /\ m = moment (tm_units f) x.
Lemma fold_latest l : forall m0, let m := fold_left (fun m c => if m <? first_moment c then first_moment c else m) l m0 in (m = m0 \/ exists c, In c l /\ m = first_moment c) /\ m0 <= m /\ forall c, In c l -> first_moment c <= m.
Proof.
  induction l as [|c l IH]; intros m0 m.
  - split; [now left|]. split; [apply Qle_refl|intros ? []].
  - unfold m. cbn [fold_left]. destruct (IH (if m0 <? first_moment c then first_moment c else m0)) as (A & B & C). set (k := fold_left _ l _) in *.
    destruct (m0 <? first_moment c) eqn:E; [apply Qltb_lt in E|apply Qltb_ge in E].
    + split; [right; destruct A as [A|(d & D & A)]; [exists c; cbn; auto|exists d; cbn; auto]|]. split; [lra|]. intros d [<-|D]; [exact B|now apply C].
    + split; [destruct A as [A|(d & D & A)]; [left; exact A|right; exists d; cbn; auto]|]. split; [exact B|]. intros d [<-|D]; [lra|now apply C].
Qed.
Definition frt_of (c : tcube) : result tcoord := match tc_frt c with Some f => if tm_spans f then Err ValueError else Ok f | None => Err CoordinateNotFoundError end.
Theorem C81_latest cubes m : (forall c, In c cubes -> exists x, reference_moment c x) -> find_latest_cycletime cubes = Ok m -> (exists c, In c cubes /\ reference_moment c m) /\ forall c x, In c cubes -> reference_moment c x -> x <= m.
Proof.
  intros R H. unfold find_latest_cycletime in H. fold frt_of in H. destruct (mapM frt_of cubes) as [fs|e] eqn:M; cbn [bind] in H; [|discriminate].
  assert (F : Forall2 (fun c f => frt_of c = Ok f) cubes fs). { clear -M. revert fs M. induction cubes as [|c r IH]; intros fs M; cbn [mapM] in M; [injection M as <-; constructor|]. destruct (frt_of c) eqn:E; cbn [bind] in M; [|discriminate]. destruct (mapM frt_of r) eqn:Er; cbn [bind] in M; [|discriminate]. injection M as <-. constructor; auto. }
  assert (G : forall c f, In c cubes -> frt_of c = Ok f -> reference_moment c (first_moment f)).
  { intros c f C E. destruct (R c C) as (x & g & y & Eg & Py & Sp & _). unfold frt_of in E. rewrite Eg, Sp in E. injection E as <-. exists g, y. split; [exact Eg|]. split; [exact Py|]. split; [exact Sp|]. unfold first_moment. now rewrite Py. }
  assert (Gi : forall f, In f fs -> exists c, In c cubes /\ frt_of c = Ok f). { clear -F. induction F; intros f I'; [destruct I'|]. destruct I' as [<-|I']; [exists x; cbn; auto|]. destruct (IHF f I') as (c & C & E). exists c. cbn; auto. }
  assert (Gj : forall c, In c cubes -> exists f, In f fs /\ frt_of c = Ok f). { clear -F. induction F; intros c I'; [destruct I'|]. destruct I' as [<-|I']; [exists y; cbn; auto|]. destruct (IHF c I') as (f & C & E). exists f. cbn; auto. }
  destruct fs as [|f0 fs]; [discriminate|]. injection H as <-. destruct (fold_latest (f0 :: fs) (first_moment f0)) as (A & B & C). cbn zeta in A, B, C. change (fold_left (fun m c => if m <? first_moment c then first_moment c else m) fs (if first_moment f0 <? first_moment f0 then first_moment f0 else first_moment f0)) with (fold_left (fun m c => if m <? first_moment c then first_moment c else m) (f0 :: fs) (first_moment f0)).
  set (m := fold_left _ (f0 :: fs) _) in *. split.
  - assert (X : exists f, In f (f0 :: fs) /\ m = first_moment f). { destruct A as [A|(f & I' & A)]; [exists f0; cbn; auto|exists f; auto]. } destruct X as (f & I' & ->). destruct (Gi f I') as (c & Cc & E). exists c. split; [exact Cc|now apply G].
  - intros c x Ic Rx. destruct (Gj c Ic) as (f & If & E). assert (Rf := G c f Ic E). assert (x = first_moment f). { destruct Rx as (g & y & Eg & Py & _ & ->). destruct Rf as (g' & y' & Eg' & Py' & _ & ->). rewrite Eg in Eg'. injection Eg' as <-. rewrite Py in Py'. now injection Py' as <-. } subst x. now apply C.
Qed.
Theorem C81_latest_refused cubes : (find_latest_cycletime cubes = Err IndexError <-> cubes = []) /\ ((exists m, find_latest_cycletime cubes = Ok m) <-> cubes <> [] /\ forall c, In c cubes -> exists f, tc_frt c = Some f /\ tm_spans f = false).
Proof.
  unfold find_latest_cycletime. fold frt_of. assert (X : match mapM frt_of cubes with Ok fs => length fs = length cubes /\ forall c, In c cubes -> exists f, tc_frt c = Some f /\ tm_spans f = false | Err e => e <> IndexError /\ exists c, In c cubes /\ ~ exists f, tc_frt c = Some f /\ tm_spans f = false end).
  { induction cubes as [|c r IH]; cbn [mapM]; [split; [reflexivity|intros ? []]|]. unfold frt_of at 1. destruct (tc_frt c) as [f|] eqn:E; cbn [bind].
    - destruct (tm_spans f) eqn:S'; cbn [bind]; [split; [discriminate|]; exists c; split; [now left|]; intros (g & G & Sg); congruence|]. destruct (mapM frt_of r) as [fs|e]; cbn [bind].
      + destruct IH as [L A]. split; [cbn; now rewrite L|]. intros d [<-|D]; [exists f; auto|now apply A].
      + destruct IH as (N & d & D & A). split; [exact N|]. exists d. cbn; auto.
    - split; [discriminate|]. exists c. split; [now left|]. intros (g & G & _). congruence. }
  destruct (mapM frt_of cubes) as [fs|e]; cbn [bind].
  - destruct X as [L A]. destruct fs as [|f fs], cubes as [|c r]; try discriminate.
    + split; [split; auto|]. split; [intros [? ?]; discriminate|]. intros [N _]. congruence.
    + split; [split; discriminate|]. split; [intros _; split; [discriminate|exact A]|eauto].
  - destruct X as (N & c & C & A). split.
    + split; [intro Y; injection Y as Y; congruence|]. intros ->. destruct C.
    + split; [intros [? ?]; discriminate|]. intros [_ B]. exfalso. apply A. now apply B.
Qed.
(** The cubes on the latest of their cycles, or on the one given: in the same order, each as it was except for the cycle. *)
Theorem C81_rebadged cubes cycle T : whole [T] -> (forall t, cycle = Some t -> t = T) -> (cycle = None -> find_latest_cycletime cubes = Ok T /\ (2 <= length cubes)%nat) -> (forall c, In c cubes -> ready c T) ->
  exists out, rebadge cubes cycle = Ok out /\ Forall2 (fun c c' => on_cycle c c' T) cubes out.
Proof.
  intros W Cy Cn Rd. assert (U : exists out, unify_cycletime cubes T = Ok out /\ Forall2 (fun c c' => on_cycle c c' T) cubes out).
  { unfold unify_cycletime. clear Cy Cn. induction cubes as [|c r IH]; [exists []; split; [reflexivity|constructor]|]. destruct (C81_cycle c T W (Rd c (or_introl eq_refl))) as (c' & E & O). destruct IH as (out & E' & F); [intros d D; apply Rd; now right|]. exists (c' :: out). cbn [mapM]. rewrite E, E'. split; [reflexivity|now constructor]. }
  destruct U as (out & E & F). exists out. split; [|exact F]. unfold rebadge. destruct cycle as [t|].
  - rewrite (Cy t eq_refl). exact E.
  - destruct (Cn eq_refl) as [L G]. rewrite L. destruct cubes as [|c [|d r]]; cbn in G; try lia. exact E.
Qed.
(** A single cube without a cycle is left as it is. *)
Theorem C81_single c : rebadge [c] None = Ok [c].
Proof. reflexivity. Qed.
(** Doing it again changes nothing. *)
Lemma set_cycle_inv T c c' : set_cycle T c = Ok c' -> exists z, near_integer T = true /\ z = round_half_even T /\ tc_frt c' = Some {| tm_points := [inject_Z z]; tm_bounds := None; tm_units := since_1970; tm_dtype := Int64; tm_bdtype := Int64; tm_dim := true; tm_spans := false; tm_attributes := [] |} /\
  forall T', near_integer T' = true -> round_half_even T' = z -> set_cycle T' c' = Ok c'.
Proof.
  unfold set_cycle. unfold create_frt at 1, round_close. cbn [forallb map]. rewrite andb_true_r. destruct (near_integer T) eqn:N; cbn [bind]; [|discriminate]. destruct (tc_frt c) as [f0|]; [|discriminate].
  set (f := {| tm_points := [inject_Z (round_half_even T)]; tm_bounds := None; tm_units := since_1970; tm_dtype := Int64; tm_bdtype := Int64; tm_dim := true; tm_spans := false; tm_attributes := [] |}). destruct (forecast_period_coord _ true) as [p|] eqn:P; cbn [bind]; [|discriminate]. intro H. apply Ok_inj in H. subst c'.
  exists (round_half_even T). split; [reflexivity|]. split; [reflexivity|]. split; [reflexivity|]. intros T' N' E. unfold create_frt, round_close. cbn [forallb map]. rewrite N'. cbn [andb bind tc_frt tc_time tc_blend tc_dtype tc_others tc_data]. rewrite E. fold f. rewrite P. reflexivity.
Qed.
Lemma near_of x z : x == inject_Z z -> near_integer x = true /\ round_half_even x = z.
Proof.
  intro E. assert (R : round_half_even x = z) by (rewrite E; apply rhe_int). split; [|exact R]. unfold near_integer. rewrite R. apply Qleb_le. assert (Z : x - inject_Z z == 0) by lra. rewrite Z. change (Qabs 0) with 0. pose proof (Qabs_nonneg (inject_Z z)). lra.
Qed.
Theorem C81_again cubes cycle out : cubes <> [] -> rebadge cubes cycle = Ok out -> rebadge out None = Ok out.
Proof.
  intros N H. assert (G : forall T, unify_cycletime cubes T = Ok out -> rebadge out None = Ok out).
  { intros T U. unfold unify_cycletime in U. set (z := round_half_even T). set (f := {| tm_points := [inject_Z z]; tm_bounds := None; tm_units := since_1970; tm_dtype := Int64; tm_bdtype := Int64; tm_dim := true; tm_spans := false; tm_attributes := [] |}).
    assert (A : length out = length cubes /\ forall c', In c' out -> tc_frt c' = Some f /\ forall T', near_integer T' = true -> round_half_even T' = z -> set_cycle T' c' = Ok c').
    { clear N H. revert out U. induction cubes as [|c r IH]; intros out U; cbn [mapM] in U; [injection U as <-; split; [reflexivity|intros ? []]|]. destruct (set_cycle T c) as [c'|] eqn:E; cbn [bind] in U; [|discriminate]. destruct (mapM (set_cycle T) r) as [o|]; cbn [bind] in U; [|discriminate]. apply Ok_inj in U. subst out.
      destruct (IH o eq_refl) as [L B]. split; [cbn; now rewrite L|]. intros d [<-|D]; [|now apply B]. destruct (set_cycle_inv _ _ _ E) as (z' & _ & -> & F & K). split; [exact F|exact K]. }
    destruct A as [L A]. destruct out as [|o1 [|o2 r]]; [destruct cubes; [congruence|discriminate]|reflexivity|].
    unfold rebadge. set (out := o1 :: o2 :: r) in *.
    assert (FM : exists m, find_latest_cycletime out = Ok m /\ m == inject_Z z).
    { unfold find_latest_cycletime. fold frt_of. assert (M : forall l, (forall c, In c l -> tc_frt c = Some f) -> mapM frt_of l = Ok (map (fun _ => f) l)). { induction l as [|c l IH]; intro X; [reflexivity|]. cbn [mapM map]. unfold frt_of at 1. rewrite (X c) by now left. cbn [tm_spans f bind]. rewrite IH by (intros d D; apply X; now right). reflexivity. }
      rewrite M by (intros c C; now apply A). cbn [bind out map]. eexists. split; [reflexivity|]. destruct (fold_latest (f :: f :: map (fun _ => f) r) (first_moment f)) as (B & _ & _). cbn zeta in B.
      assert (E : first_moment f == inject_Z z) by (unfold first_moment, moment; cbn; ring). destruct B as [B|(c & C & B)]; rewrite B; [exact E|]. assert (c = f). { destruct C as [<-|[<-|C]]; auto. apply in_map_iff in C as (? & <- & _). reflexivity. } subst c. exact E. }
    destruct FM as (m & -> & Em). cbn [bind]. unfold unify_cycletime.
    assert (K : forall l, (forall c, In c l -> In c out) -> mapM (set_cycle m) l = Ok l).
    { induction l as [|c l IH]; intro X; [reflexivity|]. cbn [mapM]. destruct (A c (X c (or_introl eq_refl))) as [_ Sc]. destruct (near_of m z Em) as [Nm Rm]. rewrite Sc by assumption. cbn [bind]. rewrite IH by (intros d D; apply X; now right). reflexivity. }
    apply K. auto. }
  unfold rebadge in H. destruct cycle as [t|]; [now apply (G t)|]. destruct cubes as [|c [|d r]]; [congruence|injection H as <-; reflexivity|]. destruct (find_latest_cycletime _) as [t|]; cbn [bind] in H; [now apply (G t)|discriminate].
Qed.
Definition scalar (x : Q) : tcoord := {| tm_points := [x]; tm_bounds := None; tm_units := since_1970; tm_dtype := Int64; tm_bdtype := Int64; tm_dim := true; tm_spans := false; tm_attributes := [] |}.
Definition case_cube (frt : Q) : tcube := {| tc_time := Some (plain [36000; 39600] (Some [(32400, 36000); (36000, 39600)])); tc_frt := Some (scalar frt); tc_blend := None; tc_period := None; tc_dtype := Float32; tc_others := []; tc_data := [Some frt] |}.
Example C80_case : match forecast_period_coord (case_cube 3600) true with Ok p => map Qred (tm_points p) = [32400; 36000] /\ option_map (map (fun b => (Qred (fst b), Qred (snd b)))) (tm_bounds p) = Some [(28800, 32400); (32400, 36000)] | Err _ => False end.
Proof. vm_compute. auto. Qed.
Example C81_case : ready (case_cube 3600) 7200 /\ match rebadge [case_cube 3600; case_cube 7200; case_cube 0] None with
  Ok out => map (fun c => option_map (fun p => map Qred (tm_points p)) (tc_period c)) out = [Some [28800; 32400]; Some [28800; 32400]; Some [28800; 32400]] /\ map (fun c => option_map tm_points (tc_frt c)) out = [Some [7200]; Some [7200]; Some [7200]] /\ map tc_data out = [[Some 3600]; [Some 7200]; [Some 0]] | Err _ => False end.
Proof.
  split; [|vm_compute; auto]. split; [|split; [discriminate|split; [discriminate|]]].
  - exists (plain [36000; 39600] (Some [(32400, 36000); (36000, 39600)])). split; [reflexivity|]. split.
    + split; intros _ x X; cbn in X; repeat (destruct X as [<-|X]; [eexists; reflexivity|]); destruct X.
    + split; [reflexivity|]. intros x X. cbn in X. repeat (destruct X as [<-|X]; [split; vm_compute; discriminate|]). destruct X.
  - intros o O. cbn in O. repeat (destruct O as [<-|O]; [apply standard_iff; reflexivity|]). destruct O.
Qed.

Print Assumptions C82_standards.
Print Assumptions C82_enforced.
Print Assumptions C80_round.
Print Assumptions C80_round_refuted.
Print Assumptions C80_kept.
Print Assumptions C80_calculated.
Print Assumptions C80_refused.
Print Assumptions C80_kind.
Print Assumptions C80_bounds_refuted.
Print Assumptions C80_range_refuted.
Print Assumptions C80_references_refuted.
Print Assumptions C81_cycle.
Print Assumptions C81_blend_time.
Print Assumptions C81_latest.
Print Assumptions C81_latest_refused.
Print Assumptions C81_rebadged.
Print Assumptions C81_single.
Print Assumptions C81_again.
