(** C90: thresholds that depend on the latitude, and lightning from CAPE and precipitation. *)
From Coq Require Import Lia.
From Verif Require Import Base Model_Rescale Proofs_Rescale Model_Threshold Model_Bias Model_Latitude.
From Coq Require Import Lqa.
Local Open Scope Q_scope.

(** * Specification *)
Definition at_point (f : rows) (i j : nat) : dval := nth j (nth i f []) Masked.
(** As many rows as latitudes, all of the same length. *)
Definition shaped (h w : nat) (f : rows) : Prop := length f = h /\ Forall (fun r => length r = w) f.
Definition without_nan (f : rows) : Prop := forall r, In r f -> ~ In NotANumber r.
(** The threshold of [mid] beyond 50 degrees, [tropics] within 10 degrees of the equator, linear in between. *)
Definition expected_threshold (mid tropics latitude : Q) : Q :=
  if 50 <=? Qabs latitude then mid else if Qabs latitude <=? 10 then tropics else mid + (50 - Qabs latitude) / 40 * (tropics - mid).
Definition transposed (n : nat) (f : rows) : rows := map (fun j => map (fun i => at_point f i j) (seq 0 n)) (seq 0 n).

(** * C90 *)
Theorem C90_threshold mid tropics latitude : mid <= tropics -> latitude_to_threshold mid tropics latitude == expected_threshold mid tropics latitude.
Proof.
  intro M. unfold latitude_to_threshold, expected_threshold, rescale_pt, clip. assert (MI : Qmin mid tropics == mid) by (apply Q.min_l; exact M). assert (MA : Qmax mid tropics == tropics) by (apply Q.max_r; exact M).
  assert (K : forall v a, v == mid + (50 - a) * (1 # 40) * (tropics - mid) -> Qmin (Qmax v (Qmin mid tropics)) (Qmax mid tropics) == (if 50 <=? a then mid else if a <=? 10 then tropics else mid + (50 - a) / 40 * (tropics - mid))).
  { intros v a E. assert (D : forall a b, (a <=? b) = false -> b < a) by (intros x y H; destruct (Qlt_le_dec y x) as [X|X]; [exact X|apply Qleb_le in X; congruence]).
    destruct (50 <=? a) eqn:A; [apply Qleb_le in A|apply D in A; destruct (a <=? 10) eqn:B; [apply Qleb_le in B|apply D in B]].
    - assert (v <= mid) by (rewrite E; nra). clear E. qmm; lra.
    - assert (tropics <= v) by (rewrite E; nra). clear E. qmm; lra.
    - assert (E' : mid + (50 - a) / 40 * (tropics - mid) == v) by (rewrite E; field). rewrite E'. assert (mid <= v <= tropics) by (rewrite E; split; nra). clear E E'. qmm; lra. }
  destruct (Qltb_spec 0 latitude) as [P|P]; apply K.
  - pose proof (Qabs_pos latitude ltac:(lra)) as A. rewrite A. field.
  - pose proof (Qabs_neg latitude ltac:(lra)) as A. rewrite A. field.
Qed.
(** The threshold is the same in both hemispheres, between the two values, and does not increase towards the poles. *)
Theorem C90_threshold_shape mid tropics l m : mid <= tropics -> mid <= latitude_to_threshold mid tropics l <= tropics /\ latitude_to_threshold mid tropics (- l) == latitude_to_threshold mid tropics l /\ (Qabs l <= Qabs m -> latitude_to_threshold mid tropics m <= latitude_to_threshold mid tropics l).
Proof.
  intro M. rewrite !C90_threshold by exact M. unfold expected_threshold. replace (Qabs (- l)) with (Qabs l) by (destruct l as [a b]; unfold Qabs, Qopp; cbn; rewrite Z.abs_opp; reflexivity). assert (V1 : forall a, (50 - a) / 40 == (50 - a) * (1 # 40)) by (intro; field).
  assert (D : forall a b, (a <=? b) = false -> b < a) by (intros a b H; destruct (Qlt_le_dec b a) as [X|X]; [exact X|apply Qleb_le in X; congruence]).
  split; [|split; [reflexivity|]].
  - destruct (50 <=? Qabs l) eqn:A; [lra|]. destruct (Qabs l <=? 10) eqn:B; [lra|]. apply D in A, B. rewrite V1. split; nra.
  - intro L. destruct (50 <=? Qabs m) eqn:A; [destruct (50 <=? Qabs l) eqn:A'; [lra|]; destruct (Qabs l <=? 10) eqn:B'; [lra|]; apply D in A', B'; rewrite V1; nra|].
    apply D in A. destruct (50 <=? Qabs l) eqn:A'; [apply Qleb_le in A'; lra|]. apply D in A'. destruct (Qabs l <=? 10) eqn:B'; destruct (Qabs m <=? 10) eqn:B; [lra| | |]; rewrite ?V1.
    + apply D in B. nra.
    + apply D in B'. apply Qleb_le in B. lra.
    + nra.
Qed.
(** Data and latitudes that fit, without NaN: each row is compared with the threshold of its latitude; masked points stay masked. *)
Lemma nan_iff f : existsb (existsb is_nan) f = true <-> exists r, In r f /\ In NotANumber r.
Proof.
  rewrite existsb_exists. split; intros (r & A & B); exists r; (split; [exact A|]).
  - apply existsb_exists in B as (v & V & E). destruct v; try discriminate. exact V.
  - apply existsb_exists. exists NotANumber. auto.
Qed.
Theorem C90_latitude f c units latitudes data h w : shaped h w data -> length latitudes = h -> without_nan data ->
  exists out, latitude_threshold f c units latitudes data = Ok out /\ shaped h w out /\ forall i j, (i < h)%nat -> (j < w)%nat ->
    at_point out i j = match at_point data i j with Num q => Num (if cmp_fun c (units q) (f (nth i latitudes 0)) then 1 else 0) | _ => Masked end.
Proof.
  intros [L F] LL NN. unfold latitude_threshold. destruct (existsb _ data) eqn:E; [exfalso; apply nan_iff in E as (r & A & B); exact (NN r A B)|]. rewrite L, LL, Nat.eqb_refl. cbn [negb]. eexists. split; [reflexivity|].
  assert (LC : length (combine (map f latitudes) data) = h) by (rewrite combine_length, map_length; lia). rewrite Forall_forall in F. split.
  - split; [rewrite map_length; exact LC|]. apply Forall_forall. intros r R. apply in_map_iff in R as ([t r0] & <- & R). rewrite map_length. apply F. cbn. apply in_combine_r in R. exact R.
  - intros i j I J. unfold at_point. rewrite (nth_map_lt _ (combine (map f latitudes) data) i (f 0, []) []) by lia. rewrite combine_nth by (rewrite map_length; lia). cbn [fst snd]. rewrite (map_nth f).
    assert (LR : length (nth i data []) = w) by (apply F, nth_In; lia). rewrite (nth_map_lt _ (nth i data []) j Masked Masked) by lia. destruct (nth j (nth i data []) Masked) eqn:V; cbn [convert truth]; try reflexivity.
    exfalso. apply (NN (nth i data [])); [apply nth_In; lia|]. rewrite <- V. apply nth_In. lia.
Qed.
(** NaN, and other numbers of rows, are refused. *)
Theorem C90_refused f c units latitudes data : (exists r, In r data /\ In NotANumber r) \/ length data <> length latitudes -> latitude_threshold f c units latitudes data = Err ValueError.
Proof.
  intros [H|H]; unfold latitude_threshold.
  - apply nan_iff in H. rewrite H. reflexivity.
  - destruct (existsb _ data); [reflexivity|]. destruct (Nat.eqb_spec (length data) (length latitudes)); [contradiction|reflexivity].
Qed.
(** Lightning exactly where both exceed their thresholds; masked exactly where one of them is. *)
Theorem C90_lightning x to_mm latitudes cape precip h w : check_inputs x = Ok tt -> shaped h w cape -> shaped h w precip -> length latitudes = h -> without_nan cape -> without_nan precip ->
  exists out, lightning x to_mm latitudes cape precip = Ok out /\ forall i j, (i < h)%nat -> (j < w)%nat ->
    match at_point cape i j, at_point precip i j with
    | Num c, Num p => exists v, at_point out i j = Num v /\ (v == 0 \/ v == 1) /\ (v == 1 <-> expected_threshold 350 500 (nth i latitudes 0) < c /\ expected_threshold 1 4 (nth i latitudes 0) < to_mm p)
    | _, _ => at_point out i j = Masked
    end.
Proof.
  intros X SC SP L NC NP. unfold lightning. rewrite X. cbn [bind]. destruct (C90_latitude (latitude_to_threshold 350 500) GT (fun q => q) latitudes cape h w SC L NC) as (a & -> & [LA FA] & A). destruct (C90_latitude (latitude_to_threshold 1 4) GT to_mm latitudes precip h w SP L NP) as (b & -> & [LB FB] & B). cbn [bind].
  eexists. split; [reflexivity|]. intros i j I J. rewrite Forall_forall in FA, FB.
  assert (E : at_point (map (fun ab => map (fun uv => product (fst uv) (snd uv)) (combine (fst ab) (snd ab))) (combine a b)) i j = product (at_point a i j) (at_point b i j)).
  { unfold at_point. rewrite (nth_map_lt _ (combine a b) i ([], []) []) by (rewrite combine_length; lia). rewrite combine_nth by lia. cbn [fst snd]. assert (RA : length (nth i a []) = w) by (apply FA, nth_In; lia). assert (RB : length (nth i b []) = w) by (apply FB, nth_In; lia).
    rewrite (nth_map_lt _ (combine (nth i a []) (nth i b [])) j (Masked, Masked) Masked) by (rewrite combine_length; lia). rewrite combine_nth by lia. reflexivity. }
  rewrite E, A, B by assumption. destruct (at_point cape i j) as [c| |]; destruct (at_point precip i j) as [p| |]; try reflexivity. cbn [product]. eexists. split; [reflexivity|]. cbn [cmp_fun].
  assert (T1 := C90_threshold 350 500 (nth i latitudes 0) ltac:(lra)). assert (T2 := C90_threshold 1 4 (nth i latitudes 0) ltac:(lra)).
  destruct (Qltb_spec (latitude_to_threshold 350 500 (nth i latitudes 0)) c) as [U|U]; destruct (Qltb_spec (latitude_to_threshold 1 4 (nth i latitudes 0)) (to_mm p)) as [V|V].
  - split; [right; ring|]. split; [intros _; rewrite <- T1, <- T2; auto|intros _; ring].
  - split; [left; ring|]. split; [intro C; exfalso; lra|intros [_ C]; exfalso; rewrite <- T2 in C; lra].
  - split; [left; ring|]. split; [intro C; exfalso; lra|intros [C _]; exfalso; rewrite <- T1 in C; lra].
  - split; [left; ring|]. split; [intro C; exfalso; lra|intros [C _]; exfalso; rewrite <- T1 in C; lra].
Qed.
(** Which inputs are accepted: CAPE valid at the beginning of a period of precipitation of one or three hours, of the same forecast and grid. *)
Theorem C90_inputs x : check_inputs x = Ok tt <-> has_cape x = true /\ has_precip x = true /\ (exists upper, precip_bounds x = Some (cape_time x, upper) /\ (upper = cape_time x + 3600 \/ upper = cape_time x + 10800)%Z) /\ cape_frt x = precip_frt x /\ grids_match x = true.
Proof.
  unfold check_inputs. destruct (has_cape x); [|split; [discriminate|intros (C & _); discriminate]]. destruct (has_precip x); [|split; [discriminate|intros (_ & C & _); discriminate]]. cbn [negb]. destruct (precip_bounds x) as [[lower upper]|]; [|split; [discriminate|intros (_ & _ & (u & C & _) & _); discriminate]].
  destruct (Z.eqb_spec (cape_time x) lower) as [A|A]; cbn [negb]; [|split; [discriminate|intros (_ & _ & (u & C & _) & _); injection C as C _; congruence]]. subst lower.
  destruct (Z.eqb_spec (upper - cape_time x) 3600) as [B|B]; destruct (Z.eqb_spec (upper - cape_time x) 10800) as [B'|B']; cbn [orb negb]; [lia| | |split; [discriminate|intros (_ & _ & (u & C & D) & _); injection C as ->; lia]].
  all: destruct (Z.eqb_spec (cape_frt x) (precip_frt x)) as [D|D]; cbn [negb]; [|split; [discriminate|tauto]]; destruct (grids_match x); cbn [negb]; (split; [intro C; try discriminate|intros (_ & _ & _ & _ & C); try discriminate; reflexivity]); repeat split; auto; exists upper; split; auto; lia.
Qed.
(** Refuted: that the order of the dimensions does not matter. If longitude comes first (as many longitudes as latitudes), each longitude is compared with the threshold of a latitude. *)
Theorem C90_order_refuted : exists latitudes data out out', latitude_threshold (latitude_to_threshold 1 4) GT (fun q => q) latitudes data = Ok out /\ latitude_threshold (latitude_to_threshold 1 4) GT (fun q => q) latitudes (transposed 2 data) = Ok out' /\ out' <> transposed 2 out.
Proof. exists [0; 60], [[Num 2; Num 2]; [Num 2; Num 2]]. eexists _, _. split; [vm_compute; reflexivity|]. split; [vm_compute; reflexivity|]. vm_compute. discriminate. Qed.

(** * Case *)
Example C90_case : let x := {| has_cape := true; has_precip := true; cape_time := 0; precip_bounds := Some (0, 3600)%Z; cape_frt := 0; precip_frt := 0; grids_match := true |} in
  match lightning x (fun q => q * 3600) [0; -30; 60] [[Num 500; Num 501]; [Num 430; Num 430]; [Num 400; Masked]] [[Num 1; Num 1]; [Num (1 # 1000); Num (1 # 2000)]; [Num (1 # 1000); Num 1]] with
  | Ok out => map (map (fun v => match v with Num q => Num (Qred q) | v => v end)) out = [[Num 0; Num 1]; [Num 1; Num 0]; [Num 1; Masked]] | Err _ => False end.
Proof. vm_compute. reflexivity. Qed.

Print Assumptions C90_threshold.
Print Assumptions C90_threshold_shape.
Print Assumptions C90_latitude.
Print Assumptions C90_refused.
Print Assumptions C90_lightning.
Print Assumptions C90_inputs.
Print Assumptions C90_order_refuted.
