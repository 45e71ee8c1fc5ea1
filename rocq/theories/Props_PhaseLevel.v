(** C139: the altitude of a phase change of falling precipitation (PhaseChangeLevel). *)
From Verif Require Import Base Model_Integration Model_Probability Model_Rescale Model_Fill Spec_Fill Proofs_Fill Props_Fill Props_Integration Model_PhaseLevel.
Local Open Scope Q_scope.

(** ** what is said of stratify.interpolate and numpy.sqrt *)
Notation at_ l k := (nth k l 0).
(** [v] is on the straight line between two neighbouring levels that have [thr] between them. *)
Definition on_line (thr a1 z1 a2 z2 v : Q) : Prop :=
  (v - z1) * (a2 - a1) == (z2 - z1) * (thr - a1) /\ ((a1 <= thr <= a2) \/ (a2 <= thr <= a1)) /\ ((z1 <= v <= z2) \/ (z2 <= v <= z1)).
Definition interpolates (strat : stratify) : Prop := forall thr levels values, length values = length levels ->
  (forall v, strat thr (combine levels values) = Some v ->
     exists k, (Datatypes.S k < length levels)%nat /\ on_line thr (at_ levels k) (at_ values k) (at_ levels (Datatypes.S k)) (at_ values (Datatypes.S k)) v) /\
  ((2 <= length levels)%nat -> (forall i j, (i <= j < length levels)%nat -> at_ levels i <= at_ levels j) -> strat thr (combine levels values) = None ->
     (forall a, In a levels -> thr < a) \/ (forall a, In a levels -> a < thr)).
(** a square root, with a relative error of at most [eps]. *)
Definition square_root (eps : Q) (root : Q -> Q) : Prop :=
  (forall x, 0 <= x -> 0 <= root x /\ Qabs (root x * root x - x) <= eps * (1 + x)) /\
  (forall x y, 0 <= x -> x <= y -> root x <= root y) /\
  (forall x c, 0 <= c -> c * c <= x -> c <= root x).

(** A column: levels from the top down, at least two, the integral growing downwards. *)
Record column (heights integral : list Q) : Prop := {
  col_length : length integral = length heights;
  col_two : (2 <= length heights)%nat;
  col_down : forall i j, (i < j < length heights)%nat -> at_ heights j < at_ heights i;
  col_grows : forall i j, (i <= j < length heights)%nat -> at_ integral i <= at_ integral j }.

(** Such functions there are. *)
Fixpoint first_crossing (thr : Q) (l : list (Q * Q)) : option Q :=
  match l with
  | (a1, z1) :: (((a2, z2) :: _) as r) =>
    if (((a1 <=? thr) && (thr <=? a2)) || ((a2 <=? thr) && (thr <=? a1)))%Q%bool
    then Some (if a2 - a1 =? 0 then z1 else z1 + (z2 - z1) * ((thr - a1) / (a2 - a1)))
    else first_crossing thr r
  | _ => None
  end.
Lemma between_0_1 t u z1 z2 : 0 <= t -> t <= 1 -> u == z1 + (z2 - z1) * t -> (z1 <= u <= z2) \/ (z2 <= u <= z1).
Proof.
  intros T0 T1 E. destruct (Qlt_le_dec z2 z1) as [H|H]; [right|left].
  - assert (A : 0 <= (z1 - z2) * t) by (apply Qmult_le_0_compat; lra). assert (B : 0 <= (z1 - z2) * (1 - t)) by (apply Qmult_le_0_compat; lra).
    assert (A' : u == z1 - (z1 - z2) * t) by (rewrite E; ring). assert (B' : u == z2 + (z1 - z2) * (1 - t)) by (rewrite E; ring). lra.
  - assert (A : 0 <= (z2 - z1) * t) by (apply Qmult_le_0_compat; lra). assert (B : 0 <= (z2 - z1) * (1 - t)) by (apply Qmult_le_0_compat; lra).
    assert (B' : u == z2 - (z2 - z1) * (1 - t)) by (rewrite E; ring). lra.
Qed.
Lemma ratio_0_1 a b : 0 <= a -> a <= b -> 0 < b -> 0 <= a / b /\ a / b <= 1.
Proof. intros A B C. split; [apply Qle_shift_div_l; lra|apply Qle_shift_div_r; lra]. Qed.
Lemma line_point thr a1 z1 a2 z2 : ((a1 <= thr <= a2) \/ (a2 <= thr <= a1)) -> on_line thr a1 z1 a2 z2 (if a2 - a1 =? 0 then z1 else z1 + (z2 - z1) * ((thr - a1) / (a2 - a1))).
Proof.
  intro H. unfold on_line. destruct (Qeq_dec (a2 - a1) 0) as [E|N].
  - rewrite (proj2 (Qeq_bool_iff _ _) E). split; [assert (thr - a1 == 0) by lra; rewrite E, H0; ring|]. split; [exact H|]. destruct (Qlt_le_dec z1 z2); lra.
  - assert (B : Qeq_bool (a2 - a1) 0 = false) by (destruct (Qeq_bool (a2 - a1) 0) eqn:X; [apply Qeq_bool_iff in X; contradiction|reflexivity]). rewrite B.
    split; [field; exact N|]. split; [exact H|]. destruct H as [H|H].
    + destruct (ratio_0_1 (thr - a1) (a2 - a1)) as [T0 T1]; [lra|lra|lra|]. eapply between_0_1; [exact T0|exact T1|reflexivity].
    + assert (E : (thr - a1) / (a2 - a1) == (a1 - thr) / (a1 - a2)) by (field; split; lra).
      destruct (ratio_0_1 (a1 - thr) (a1 - a2)) as [T0 T1]; [lra|lra|lra|]. eapply between_0_1; [exact T0|exact T1|]. rewrite E. reflexivity.
Qed.
Theorem C139_interpolates_case : interpolates first_crossing.
Proof.
  intros thr levels. induction levels as [|a1 levels IH]; intros [|z1 values] L; try discriminate L; [split; [discriminate|cbn; lia]|].
  destruct levels as [|a2 levels], values as [|z2 values]; try discriminate L; [split; [discriminate|cbn; lia]|].
  cbn [combine]. change (first_crossing thr ((a1, z1) :: (a2, z2) :: combine levels values)) with
    (if (((a1 <=? thr) && (thr <=? a2)) || ((a2 <=? thr) && (thr <=? a1)))%Q%bool
    then Some (if a2 - a1 =? 0 then z1 else z1 + (z2 - z1) * ((thr - a1) / (a2 - a1)))
    else first_crossing thr (combine (a2 :: levels) (z2 :: values))).
  injection L as L. destruct (IH (z2 :: values)) as [IH1 IH2]; [cbn; lia|]. clear IH.
  destruct (((a1 <=? thr) && (thr <=? a2)) || ((a2 <=? thr) && (thr <=? a1)))%Q%bool eqn:B.
  - split; [|intros _ _ X; discriminate X]. intros v E. injection E as <-. exists 0%nat. split; [cbn; lia|]. cbn [nth]. apply line_point.
    apply orb_true_iff in B as [B|B]; apply andb_true_iff in B as [B1 B2]; apply Qle_bool_iff in B1, B2; [left|right]; split; assumption.
  - apply orb_false_iff in B as [B _]. split.
    + intros v E. destruct (IH1 v E) as (k & K & O). exists (Datatypes.S k). split; [cbn in *; lia|exact O].
    + intros _ M N. assert (A12 : a1 <= a2) by (apply (M 0 1)%nat; cbn; lia).
      assert (O : a1 <= thr -> thr <= a2 -> False).
      { intros X Y. apply Qle_bool_iff in X, Y. rewrite X, Y in B. discriminate B. }
      destruct levels as [|a3 levels].
      * destruct (Qlt_le_dec thr a1) as [C|C]; [left; intros a [<-|[<-|[]]]; lra|]. destruct (Qlt_le_dec a2 thr) as [D|D]; [right; intros a [<-|[<-|[]]]; lra|]. destruct (O C D).
      * destruct IH2 as [A|A]; [cbn; lia|intros i j H; apply (M (Datatypes.S i) (Datatypes.S j)); cbn in *; lia|exact N| |].
        -- left. assert (T : thr < a2) by (apply A; now left). intros a [<-|X]; [|apply A; exact X]. destruct (Qlt_le_dec thr a1); [assumption|]. destruct O; lra.
        -- right. assert (T : a2 < thr) by (apply A; now left). intros a [<-|X]; [lra|apply A; exact X].
Qed.

(** ** the levels of a column *)
Lemma greatest_ge l a : In a l -> a <= greatest l.
Proof. destruct l as [|x r]; [intros []|]. apply qmaxl_ge. Qed.
Lemma greatest_in l : l <> [] -> exists a, In a l /\ greatest l == a.
Proof. destruct l as [|x r]; [congruence|]. intros _. destruct (qmaxl_in x r) as (y & I & E). exists y. split; assumption. Qed.
Lemma Qltb_t a b : a < b -> Qltb a b = true.
Proof. intro H. destruct (Qltb_spec a b); [reflexivity|lra]. Qed.
Lemma Qltb_f a b : b <= a -> Qltb a b = false.
Proof. intro H. destruct (Qltb_spec a b); [lra|reflexivity]. Qed.

Section Column.
Variables (strat : stratify) (root : Q -> Q) (heights : list Q) (top : Q) (t_heights : list Q).
Hypothesis St : interpolates strat.

Lemma level_crossing thr p v : length (p_integral p) = length heights -> falling_level strat thr (p_integral p) heights (p_orog p) = Some v ->
  exists k, (Datatypes.S k < length heights)%nat /\ on_line thr (at_ (p_integral p) k) (p_orog p + at_ heights k) (at_ (p_integral p) (Datatypes.S k)) (p_orog p + at_ heights (Datatypes.S k)) v.
Proof using St.
  intros L E. destruct (St thr (p_integral p) (map (fun h => p_orog p + h) heights)) as [X _]; [rewrite map_length; congruence|].
  destruct (X v E) as (k & K & O). rewrite L in K. exists k. split; [exact K|].
  rewrite (nth_map_lt (fun h => p_orog p + h) heights k 0 0), (nth_map_lt (fun h => p_orog p + h) heights (Datatypes.S k) 0 0) in O by lia. exact O.
Qed.
Lemma level_cases thr p : column heights (p_integral p) ->
  (exists v, falling_level strat thr (p_integral p) heights (p_orog p) = Some v /\ level_at strat root thr top heights t_heights p = Some v) \/
  ((forall a, In a (p_integral p) -> thr < a) /\ falling_level strat thr (p_integral p) heights (p_orog p) = None /\ level_at strat root thr top heights t_heights p = Some (top + p_orog p)) \/
  ((forall a, In a (p_integral p) -> a < thr) /\ falling_level strat thr (p_integral p) heights (p_orog p) = None /\
    level_at strat root thr top heights t_heights p = if Qltb (p_land p) 1 then option_map (fun v => v + p_orog p) (extrapolated root thr (greatest (p_integral p)) (wet_bulb_fit t_heights (p_temps p))) else None).
Proof using St.
  intros [L T D G]. unfold level_at. destruct (falling_level strat thr (p_integral p) heights (p_orog p)) as [v|] eqn:E; [left; exists v; split; reflexivity|right].
  assert (N : p_integral p <> []) by (intro X; rewrite X in L; cbn in L; lia).
  destruct (greatest_in _ N) as (g & Ig & Eg).
  destruct (St thr (p_integral p) (map (fun h => p_orog p + h) heights)) as [_ X]; [rewrite map_length; congruence|].
  destruct X as [A|B]; [lia|intros i j H; apply G; lia|exact E| |].
  - left. split; [exact A|]. split; [reflexivity|]. unfold fill_high. specialize (A g Ig). rewrite Qltb_t by lra. reflexivity.
  - right. split; [exact B|]. split; [reflexivity|]. unfold fill_high, fill_sea. specialize (B g Ig). rewrite Qltb_f by lra. rewrite (Qltb_t (greatest (p_integral p)) thr) by lra. rewrite andb_true_r. reflexivity.
Qed.
End Column.

(** C139: where the integral passes the threshold the altitude is on the straight line between the two levels it does so between, above the orography. *)
Theorem C139_crossing strat root thr top heights t_heights p : interpolates strat -> column heights (p_integral p) ->
  (exists a, In a (p_integral p) /\ a <= thr) -> (exists a, In a (p_integral p) /\ thr <= a) ->
  exists v k, level_at strat root thr top heights t_heights p = Some v /\ (Datatypes.S k < length heights)%nat /\
    at_ (p_integral p) k <= thr <= at_ (p_integral p) (Datatypes.S k) /\ p_orog p + at_ heights (Datatypes.S k) <= v <= p_orog p + at_ heights k /\
    (v - (p_orog p + at_ heights k)) * (at_ (p_integral p) (Datatypes.S k) - at_ (p_integral p) k) == (at_ heights (Datatypes.S k) - at_ heights k) * (thr - at_ (p_integral p) k).
Proof.
  intros St C (a & Ia & A) (b & Ib & B). destruct (level_cases strat root heights top t_heights St thr p C) as [(v & F & E)|[(X & _)|(X & _)]].
  - destruct (level_crossing strat heights St thr p v (col_length _ _ C) F) as (k & K & O1 & O2 & O3). exists v, k. split; [exact E|]. split; [exact K|].
    pose proof (col_grows _ _ C k (Datatypes.S k) ltac:(lia)). pose proof (col_down _ _ C k (Datatypes.S k) ltac:(lia)). split; [lra|]. split; [lra|].
    rewrite O1. ring.
  - specialize (X a Ia). lra.
  - specialize (X b Ib). lra.
Qed.
(** C139: where the integral is above the threshold on every level the change is above them: the altitude is that of the highest level. *)
Theorem C139_high strat root thr top heights t_heights p : interpolates strat -> column heights (p_integral p) -> (forall a, In a (p_integral p) -> thr < a) ->
  level_at strat root thr top heights t_heights p = Some (top + p_orog p).
Proof.
  intros St C A. destruct (level_cases strat root heights top t_heights St thr p C) as [(v & F & E)|[(X & _ & E)|(X & _)]]; [|exact E|].
  - exfalso. pose proof (col_length _ _ C) as L. destruct (level_crossing strat heights St thr p v L F) as (k & K & _ & O2 & _).
    pose proof (A _ (nth_In (p_integral p) 0 (n := k) ltac:(lia))). pose proof (A _ (nth_In (p_integral p) 0 (n := Datatypes.S k) ltac:(lia))). lra.
  - exfalso. pose proof (col_length _ _ C) as L. pose proof (col_two _ _ C). assert (I : In (at_ (p_integral p) 0) (p_integral p)) by (apply nth_In; lia). pose proof (A _ I). pose proof (X _ I). lra.
Qed.

(** ** below the sea *)
(** The area between the height [h] and the sea under a wet-bulb temperature that is straight, [g z + c], where it is above zero. *)
Definition warm (g c h : Q) : Q :=
  let t z := g * z + c in
  if Qltb c 0 then (- c / g - h) * t h / 2 else (0 - h) * (t h + t 0) / 2.
Lemma extrapolated_is eps root thr max g c : square_root eps root -> g < 0 -> max < thr ->
  exists h, extrapolated root thr max (Some (g, c)) = Some (Qmax h (- (2000))) /\ h <= 0 /\ 0 <= g * h + c /\
    exists e, Qabs e <= eps * (1 + (c * c - 2 * g * (thr - max))) / (2 * - g) /\ max + warm g c h == thr + e.
Proof.
  intros [R1 [R2 R3]] G M. unfold extrapolated. rewrite Qltb_t by exact G.
  assert (Ei : (0 <=? - c / g)%Q = (0 <=? c)%Q).
  { assert (E : - c / g == c / - g) by (field; lra). apply Bool.eq_true_iff_eq. rewrite !Qle_bool_iff, E. split; intro H.
    - assert (X : c == c / - g * - g) by (field; lra). rewrite X. apply Qmult_le_0_compat; lra.
    - apply Qle_shift_div_l; lra. }
  rewrite Ei. assert (P : 0 < - g * (thr - max)) by (apply Qmult_lt_0_compat; lra). destruct (Qle_bool 0 c) eqn:C.
  - apply Qle_bool_iff in C. set (x := c * c - 2 * g * (thr - max)). assert (X : c * c <= x) by (unfold x; lra). assert (C2 : 0 <= c * c) by (apply Qmult_le_0_compat; exact C).
    pose proof (R3 x c C X) as S1. destruct (R1 x ltac:(lra)) as [S0 SA]. set (s := root x) in *. eexists. split; [reflexivity|].
    split; [apply Qle_shift_div_r; lra|]. assert (Et : g * ((c - s) / - g) + c == s) by (field; lra). split; [rewrite Et; exact S0|].
    exists ((s * s - x) / (2 * - g)). split.
    + unfold Qdiv. rewrite Qabs_Qmult. rewrite (Qabs_pos (/ (2 * - g))) by (apply Qlt_le_weak, Qinv_lt_0_compat; lra). apply Qmult_le_compat_r; [exact SA|apply Qlt_le_weak, Qinv_lt_0_compat; lra].
    + unfold warm. rewrite Qltb_f by exact C. unfold x. field. lra.
  - assert (C' : c < 0) by (destruct (Qlt_le_dec c 0) as [H|H]; [exact H|apply Qle_bool_iff in H; rewrite H in C; discriminate C]). clear C.
    set (x := 2 * g * (max - thr)). assert (X : 0 <= x) by (unfold x; assert (2 * g * (max - thr) == 2 * (- g * (thr - max))) by ring; lra).
    destruct (R1 x X) as [S0 SA]. set (s := root x) in *. eexists. split; [reflexivity|].
    split; [apply Qle_shift_div_r; lra|]. assert (Et : g * ((c - s) / - g) + c == s) by (field; lra). split; [rewrite Et; exact S0|].
    exists ((s * s - x) / (2 * - g)).
    assert (C2 : 0 <= c * c) by (assert (c * c == - c * - c) by ring; assert (0 <= - c * - c) by (apply Qmult_le_0_compat; lra); lra). assert (Z : 0 < / (2 * - g)) by (apply Qinv_lt_0_compat; lra).
    assert (EP : 0 <= eps) by (destruct (R1 0 (Qle_refl 0)) as [_ Y]; pose proof (Qabs_nonneg (root 0 * root 0 - 0)); lra). split.
    + unfold Qdiv. rewrite Qabs_Qmult. rewrite (Qabs_pos (/ (2 * - g))) by lra. apply Qmult_le_compat_r; [|lra]. eapply Qle_trans; [exact SA|]. rewrite !(Qmult_comm eps). apply Qmult_le_compat_r; [unfold x; lra|exact EP].
    + unfold warm. rewrite Qltb_t by exact C'. unfold x. field. lra.
Qed.

(** C139: at a sea point with the integral below the threshold on every level, and wet-bulb temperatures of the first five levels that fall with height along their line of best fit, the altitude is where the integral, carried on down that line below the sea, meets the threshold (as near as the square root is), but no more than 2000 m below the orography. *)
Theorem C139_sea eps strat root thr top heights t_heights p g c : interpolates strat -> square_root eps root -> column heights (p_integral p) -> (forall a, In a (p_integral p) -> a < thr) ->
  p_land p < 1 -> wet_bulb_fit t_heights (p_temps p) = Some (g, c) -> g < 0 ->
  exists h, level_at strat root thr top heights t_heights p = Some (Qmax h (- (2000)) + p_orog p) /\ h <= 0 /\ 0 <= g * h + c /\
    exists e, Qabs e <= eps * (1 + (c * c - 2 * g * (thr - greatest (p_integral p)))) / (2 * - g) /\ greatest (p_integral p) + warm g c h == thr + e.
Proof.
  intros St R C A Ld F G. pose proof (col_length _ _ C) as L. pose proof (col_two _ _ C) as T.
  destruct (level_cases strat root heights top t_heights St thr p C) as [(v & Fv & E)|[(X & _)|(X & _ & E)]].
  - exfalso. destruct (level_crossing strat heights St thr p v L Fv) as (k & K & _ & O2 & _).
    pose proof (A _ (nth_In (p_integral p) 0 (n := k) ltac:(lia))). pose proof (A _ (nth_In (p_integral p) 0 (n := Datatypes.S k) ltac:(lia))). lra.
  - exfalso. assert (I : In (at_ (p_integral p) 0) (p_integral p)) by (apply nth_In; lia). pose proof (A _ I). pose proof (X _ I). lra.
  - rewrite F, Qltb_t in E by exact Ld. destruct (greatest_in (p_integral p)) as (a & Ia & Ea); [intro Y; rewrite Y in L; cbn in L; lia|]. pose proof (A a Ia).
    destruct (extrapolated_is eps root thr (greatest (p_integral p)) g c R G ltac:(lra)) as (h & Eh & W). rewrite Eh in E. exists h. split; [exact E|exact W].
Qed.
(** The line is that of the temperatures when they are on one. *)
Theorem C139_fit heights temps g c a b : wet_bulb_fit heights temps = Some (g, c) -> (forall h t, In (h, t) (firstn 5 (combine heights temps)) -> t == a * h + b) -> g == a /\ c == b.
Proof.
  intros F H. unfold wet_bulb_fit in F. set (k := firstn 5 (combine heights temps)) in *. clearbody k. set (l := map (fun p : Q * Q => (Some (fst p), Some (snd p))) k).
  assert (V : valid_pairs l = k) by (unfold l, valid_pairs; clear; induction k as [|[x y] r IH]; [reflexivity|cbn; f_equal; exact IH]).
  assert (M : mismatched l = false) by (unfold l, mismatched; clear; induction k as [|[x y] r IH]; [reflexivity|exact IH]).
  apply (C49_exact_line l a b g c).
  - unfold fast_linear_fit. rewrite M, V. f_equal. exact F.
  - intros x y I. apply in_map_iff in I as ([u w] & E & I). cbn in E. injection E as -> ->. apply H. exact I.
Qed.

(** C139: no altitude is found (before the gaps are filled) exactly where the integral is below the threshold on every level and either the point is land or the temperatures do not fall with height. *)
Theorem C139_missing strat root thr top heights t_heights p : interpolates strat -> column heights (p_integral p) ->
  level_at strat root thr top heights t_heights p = None <->
  (forall a, In a (p_integral p) -> a < thr) /\ (1 <= p_land p \/ forall g c, wet_bulb_fit t_heights (p_temps p) = Some (g, c) -> 0 <= g).
Proof.
  intros St C. pose proof (col_length _ _ C) as L. pose proof (col_two _ _ C) as T. assert (I : In (at_ (p_integral p) 0) (p_integral p)) by (apply nth_In; lia).
  destruct (level_cases strat root heights top t_heights St thr p C) as [(v & Fv & E)|[(X & _ & E)|(X & _ & E)]]; rewrite E.
  - split; [discriminate|]. intros [A _]. exfalso. destruct (level_crossing strat heights St thr p v L Fv) as (k & K & _ & O2 & _).
    pose proof (A _ (nth_In (p_integral p) 0 (n := k) ltac:(lia))). pose proof (A _ (nth_In (p_integral p) 0 (n := Datatypes.S k) ltac:(lia))). lra.
  - split; [discriminate|]. intros [A _]. exfalso. pose proof (A _ I). pose proof (X _ I). lra.
  - destruct (Qltb_spec (p_land p) 1) as [H|H].
    + unfold extrapolated. destruct (wet_bulb_fit t_heights (p_temps p)) as [[g c]|] eqn:F.
      * destruct (Qltb_spec g 0) as [G|G]; cbn [option_map].
        -- split; [discriminate|]. intros [_ [Y|Y]]; [lra|]. specialize (Y g c eq_refl). lra.
        -- split; [|reflexivity]. intros _. split; [exact X|]. right. intros g' c' E'. injection E' as <- <-. exact G.
      * split; [|reflexivity]. intros _. split; [exact X|]. right. discriminate.
    + split; [|reflexivity]. intros _. split; [exact X|]. left. exact H.
Qed.

(** ** snow above sleet above rain *)
Lemma extrapolated_order eps root thr1 thr2 max line v1 v2 : square_root eps root -> max < thr1 -> thr1 <= thr2 ->
  extrapolated root thr1 max line = Some v1 -> extrapolated root thr2 max line = Some v2 -> v2 <= v1.
Proof.
  intros [R1 [R2 R3]] M T. unfold extrapolated. destruct line as [[g c]|]; [|discriminate]. destruct (Qltb_spec g 0) as [G|G]; [|discriminate]. intros E1 E2. injection E1 as <-. injection E2 as <-.
  apply Q.max_le_compat_r. unfold Qdiv. apply Qmult_le_compat_r; [|apply Qlt_le_weak, Qinv_lt_0_compat; lra].
  assert (P1 : 0 <= - g * (thr1 - max)) by (apply Qmult_le_0_compat; lra). assert (P2 : 0 <= - g * (thr2 - thr1)) by (apply Qmult_le_0_compat; lra).
  assert (C2 : 0 <= c * c) by (destruct (Qlt_le_dec c 0); [assert (c * c == - c * - c) by ring; assert (0 <= - c * - c) by (apply Qmult_le_0_compat; lra); lra|apply Qmult_le_0_compat; assumption]).
  destruct (0 <=? - c * / g)%Q.
  - assert (S : root (c * c - 2 * g * (thr1 - max)) <= root (c * c - 2 * g * (thr2 - max))) by (apply R2; lra). lra.
  - assert (S : root (2 * g * (max - thr1)) <= root (2 * g * (max - thr2))) by (apply R2; lra). lra.
Qed.

(** C139: with heights that are not negative, none above the highest, the altitude of a phase change with a greater threshold is never above that with a smaller one, at any point that has both. *)
Theorem C139_order eps strat root thr1 thr2 top heights t_heights p v1 v2 : interpolates strat -> square_root eps root -> column heights (p_integral p) ->
  (forall h, In h heights -> 0 <= h <= top) -> thr1 <= thr2 ->
  level_at strat root thr1 top heights t_heights p = Some v1 -> level_at strat root thr2 top heights t_heights p = Some v2 ->
  v2 <= v1 \/ thr1 == thr2.
Proof.
  intros St R C Hh T E1 E2. destruct (Qeq_dec thr1 thr2) as [Q0|Q0]; [right; exact Q0|left]. assert (TT : thr1 < thr2) by (destruct (Qlt_le_dec thr1 thr2); [assumption|destruct Q0; lra]). clear T Q0.
  pose proof (col_length _ _ C) as L. pose proof (col_two _ _ C) as TW. assert (I0 : In (at_ (p_integral p) 0) (p_integral p)) by (apply nth_In; lia).
  assert (T0 : 0 <= top) by (pose proof (Hh (at_ heights 0) (nth_In heights 0 (n := 0%nat) ltac:(lia))); lra).
  assert (Hk : forall k, (k < length heights)%nat -> 0 <= at_ heights k <= top) by (intros k Hk; apply Hh, nth_In; exact Hk).
  assert (Ik : forall k, (k < length heights)%nat -> In (at_ (p_integral p) k) (p_integral p)) by (intros k K; apply nth_In; lia).
  assert (Sea : forall v, (if Qltb (p_land p) 1 then option_map (fun v => v + p_orog p) (extrapolated root thr2 (greatest (p_integral p)) (wet_bulb_fit t_heights (p_temps p))) else None) = Some v ->
    (forall a, In a (p_integral p) -> a < thr2) -> v <= p_orog p).
  { intros v E A. destruct (Qltb (p_land p) 1); [|discriminate E]. destruct (wet_bulb_fit t_heights (p_temps p)) as [[g c]|]; [|discriminate E].
    destruct (greatest_in (p_integral p)) as (a & Ia & Ea); [intro Y; rewrite Y in L; cbn in L; lia|]. pose proof (A a Ia).
    destruct (Qlt_le_dec g 0) as [G|G]; [|unfold extrapolated in E; rewrite Qltb_f in E by exact G; discriminate E].
    destruct (extrapolated_is eps root thr2 (greatest (p_integral p)) g c R G ltac:(lra)) as (h & Eh & W & _). rewrite Eh in E. cbn [option_map] in E. injection E as <-.
    assert (Qmax h (- (2000)) <= 0) by (apply Q.max_lub; [exact W|discriminate]). lra. }
  destruct (level_cases strat root heights top t_heights St thr1 p C) as [(w1 & F1 & G1)|[(A1 & _ & G1)|(A1 & F1 & G1)]];
  destruct (level_cases strat root heights top t_heights St thr2 p C) as [(w2 & F2 & G2)|[(A2 & _ & G2)|(A2 & _ & G2)]]; rewrite G1 in E1; rewrite G2 in E2.
  - injection E1 as ->. injection E2 as ->.
    destruct (level_crossing strat heights St thr1 p v1 L F1) as (i & I & O1 & O2 & O3). destruct (level_crossing strat heights St thr2 p v2 L F2) as (j & J & N1 & N2 & N3).
    pose proof (col_grows _ _ C i (Datatypes.S i) ltac:(lia)). pose proof (col_down _ _ C i (Datatypes.S i) ltac:(lia)).
    pose proof (col_grows _ _ C j (Datatypes.S j) ltac:(lia)). pose proof (col_down _ _ C j (Datatypes.S j) ltac:(lia)).
    destruct (Nat.lt_trichotomy i j) as [K|[K|K]].
    + assert (at_ heights j <= at_ heights (Datatypes.S i)) by (destruct (Nat.eq_dec (Datatypes.S i) j) as [X|X]; [rewrite X; apply Qle_refl|apply Qlt_le_weak, (col_down _ _ C); lia]). lra.
    + subst j. set (a1 := at_ (p_integral p) i) in *. set (a2 := at_ (p_integral p) (Datatypes.S i)) in *. set (z1 := at_ heights i) in *. set (z2 := at_ heights (Datatypes.S i)) in *.
      assert (D : (v1 - v2) * (a2 - a1) == (z1 - z2) * (thr2 - thr1)) by (assert (X : (v1 - v2) * (a2 - a1) == (v1 - (p_orog p + z1)) * (a2 - a1) - (v2 - (p_orog p + z1)) * (a2 - a1)) by ring; rewrite X, O1, N1; ring).
      assert (P : 0 <= (z1 - z2) * (thr2 - thr1)) by (apply Qmult_le_0_compat; lra).
      destruct (Qlt_le_dec v1 v2) as [X|X]; [|exact X]. exfalso. assert (Y : 0 < (v2 - v1) * (a2 - a1)) by (apply Qmult_lt_0_compat; lra).
      assert (Z : (v2 - v1) * (a2 - a1) == - ((v1 - v2) * (a2 - a1))) by ring. lra.
    + pose proof (col_grows _ _ C (Datatypes.S j) i ltac:(lia)). lra.
  - exfalso. destruct (level_crossing strat heights St thr1 p w1 L F1) as (i & I & _ & O2 & _). pose proof (A2 _ (Ik i ltac:(lia))). pose proof (A2 _ (Ik (Datatypes.S i) ltac:(lia))). lra.
  - injection E1 as ->. pose proof (Sea v2 E2 A2). destruct (level_crossing strat heights St thr1 p v1 L F1) as (i & I & _ & _ & O3).
    pose proof (Hk i ltac:(lia)). pose proof (Hk (Datatypes.S i) ltac:(lia)). lra.
  - injection E1 as <-. injection E2 as ->. destruct (level_crossing strat heights St thr2 p v2 L F2) as (i & I & _ & _ & O3).
    pose proof (Hk i ltac:(lia)). pose proof (Hk (Datatypes.S i) ltac:(lia)). lra.
  - injection E1 as <-. injection E2 as <-. apply Qle_refl.
  - injection E1 as <-. pose proof (Sea v2 E2 A2). lra.
  - exfalso. destruct (level_crossing strat heights St thr2 p w2 L F2) as (i & I & _ & O2 & _). pose proof (A1 _ (Ik i ltac:(lia))). pose proof (A1 _ (Ik (Datatypes.S i) ltac:(lia))). lra.
  - exfalso. pose proof (A1 _ I0). pose proof (A2 _ I0). lra.
  - destruct (Qltb (p_land p) 1); [|discriminate E1].
    destruct (greatest_in (p_integral p)) as (a & Ia & Ea); [intro Y; rewrite Y in L; cbn in L; lia|]. pose proof (A1 a Ia).
    destruct (extrapolated root thr1 _ _) as [x1|] eqn:X1; [|discriminate E1]. destruct (extrapolated root thr2 _ _) as [x2|] eqn:X2; [|discriminate E2].
    cbn [option_map] in E1, E2. injection E1 as <-. injection E2 as <-.
    pose proof (extrapolated_order eps root thr1 thr2 (greatest (p_integral p)) (wet_bulb_fit t_heights (p_temps p)) x1 x2 R ltac:(lra) ltac:(lra) X1 X2). lra.
Qed.

(** ** filling the gaps *)
Lemma zipw_length {A B D} (f : A -> B -> D) : forall l m, length l = length m -> length (zipw f l m) = length l.
Proof. induction l as [|a l IH]; intros [|b m] H; try discriminate H; [reflexivity|]. cbn. rewrite IH; [reflexivity|]. injection H as H. exact H. Qed.
Lemma fill_below g limit valid data i w : length limit = length data -> (i < length data)%nat -> nth i data None = None -> nth i (interpolate_missing g (Some limit) true valid data) None = Some w -> w <= at_ limit i.
Proof.
  intros L I N E. destruct (C53_filled g (Some limit) true valid data i I N) as (known & _ & H). rewrite E in H. destruct H as (f & u & _ & _ & H & _). exact H.
Qed.

(** C139: filling the gaps from the points around changes no altitude that was found, never puts a new one above the orography, and (the nearest point being looked for in the end) leaves none, unless there were none at all. *)
Theorem C139_filled linear nearest ps d : length d = length ps ->
  length (horizontally linear nearest ps d) = length d /\
  (forall i v, nth i d None = Some v -> nth i (horizontally linear nearest ps d) None = Some v) /\
  (forall i w, (i < length d)%nat -> nth i d None = None -> nth i (horizontally linear nearest ps d) None = Some w -> w <= at_ (map p_orog ps) i).
Proof.
  intros L. unfold horizontally. set (limit := map p_orog ps). assert (LL : length limit = length d) by (unfold limit; rewrite map_length; congruence).
  set (d1 := interpolate_missing linear (Some limit) true (below_nearby ps d) d). assert (L1 : length d1 = length d) by apply C53_same_size.
  set (d2 := interpolate_missing nearest (Some limit) true (below_nearby ps d1) d1). assert (L2 : length d2 = length d) by (unfold d2; rewrite C53_same_size; exact L1).
  assert (K1 : forall i v, nth i d None = Some v -> nth i d1 None = Some v) by (intros; apply C53_known_kept; assumption).
  assert (K2 : forall i v, nth i d1 None = Some v -> nth i d2 None = Some v) by (intros; apply C53_known_kept; assumption).
  assert (B1 : forall i w, (i < length d)%nat -> nth i d None = None -> nth i d1 None = Some w -> w <= at_ limit i) by (intros i w I N E; exact (fill_below linear limit _ d i w LL I N E)).
  assert (B2 : forall i w, (i < length d)%nat -> nth i d None = None -> nth i d2 None = Some w -> w <= at_ limit i).
  { intros i w I N E. destruct (nth i d1 None) as [x|] eqn:X; [pose proof (K2 i x X) as Y; rewrite E in Y; injection Y as ->; exact (B1 i x I N X)|].
    apply (fill_below nearest limit (below_nearby ps d1) d1 i w); [congruence|rewrite L1; exact I|exact X|exact E]. }
  destruct (existsb _ d2).
  - split; [rewrite C53_same_size; exact L2|]. split; [intros i v E; apply C53_known_kept, K2, K1, E|].
    intros i w I N E. destruct (nth i d2 None) as [x|] eqn:X.
    + pose proof (C53_known_kept nearest (Some limit) true (map (fun _ => true) d2) d2 i x X) as Y. rewrite E in Y. injection Y as ->. exact (B2 i x I N X).
    + apply (fill_below nearest limit (map (fun _ => true) d2) d2 i w); [congruence|rewrite L2; exact I|exact X|exact E].
  - split; [exact L2|]. split; [intros i v E; apply K2, K1, E|exact B2].
Qed.
Theorem C139_complete linear nearest w ps d : length d = length ps -> is_nearest w nearest -> (exists i v, nth i d None = Some v) -> forall i, (i < length d)%nat -> nth i (horizontally linear nearest ps d) None <> None.
Proof.
  intros L W (i0 & v0 & E0) i I. unfold horizontally. set (limit := map p_orog ps).
  set (d1 := interpolate_missing linear (Some limit) true (below_nearby ps d) d).
  set (d2 := interpolate_missing nearest (Some limit) true (below_nearby ps d1) d1).
  assert (L2 : length d2 = length d) by (unfold d2, d1; rewrite !C53_same_size; reflexivity).
  assert (K : nth i0 d2 None = Some v0) by (apply C53_known_kept, C53_known_kept; exact E0).
  destruct (existsb _ d2) eqn:X.
  - intro N. destruct (nth i d2 None) as [x|] eqn:D; [rewrite (C53_known_kept nearest (Some limit) true (map (fun _ => true) d2) d2 i x D) in N; discriminate N|].
    destruct (C53_filled nearest (Some limit) true (map (fun _ => true) d2) d2 i) as (known & Kn & H); [rewrite L2; exact I|exact D|]. rewrite N in H.
    assert (I0 : (i0 < length d2)%nat) by (destruct (Nat.lt_ge_cases i0 (length d2)) as [Y|Y]; [exact Y|rewrite nth_overflow in K by exact Y; discriminate K]).
    assert (Kin : In (i0, v0) known) by (apply Kn; split; [split; [exact I0|exact K]|rewrite (nth_map_lt (fun _ : option Q => true) d2 i0 None true) by exact I0; reflexivity]).
    assert (Kne : known <> []) by (intro Y; rewrite Y in Kin; destruct Kin).
    destruct (W (length d2) known Kne) as (f & Ef & Lf & Hf). destruct (Hf i) as (v & Ev & _); [rewrite L2; exact I|].
    destruct H as [H|[H|(f' & H & H')]]; [contradiction|congruence|]. rewrite Ef in H. injection H as <-. congruence.
  - intro N. assert (Y : existsb (fun o : option Q => match o with None => true | Some _ => false end) d2 = true); [|rewrite X in Y; discriminate Y].
    apply existsb_exists. exists None. split; [|reflexivity]. rewrite <- N. apply nth_In. rewrite L2. exact I.
Qed.

(** ** the plugin *)
(** C139: the phase changes and their thresholds; refused for a phase change that is not one of the three, cubes of different models (when the attribute is given), an attribute that is not there, or no heights. *)
Theorem C139_accepted strat root linear nearest phase interp attr wbt wbi sites :
  (exists out, process strat root linear nearest phase interp attr wbt wbi sites = Ok out) <->
  (phase = "snow-sleet" \/ phase = "sleet-rain" \/ phase = "hail-rain")%string /\
  (forall k, attr = Some k -> k <> ""%string -> exists v, attribute k (c_attributes wbt) = Some v /\ attribute k (c_attributes wbi) = Some v) /\
  (exists top, highest wbt wbi = Ok top).
Proof.
  unfold process. split.
  - intros (out & H). destruct (phase_change phase) as [[t n]|] eqn:P; [|discriminate H]. cbn [bind] in H. destruct (same_model attr wbt wbi) as [[]|] eqn:M; [|discriminate H]. cbn [bind] in H.
    destruct (highest wbt wbi) as [top|] eqn:T; [|discriminate H]. split; [|split; [|eauto]].
    + unfold phase_change in P. destruct (String.eqb_spec phase "snow-sleet"); [auto|]. destruct (String.eqb_spec phase "sleet-rain"); [auto|]. destruct (String.eqb_spec phase "hail-rain"); [auto|discriminate P].
    + intros k -> N. unfold same_model in M. destruct k as [|ch k]; [destruct (N eq_refl)|]. destruct (attribute _ (c_attributes wbt)) as [a|]; [|discriminate M]. destruct (attribute _ (c_attributes wbi)) as [b|]; [|discriminate M].
      destruct (String.eqb_spec a b); [subst; eauto|discriminate M].
  - intros (P & M & top & T). assert (exists d, phase_change phase = Ok d) as [d ->] by (destruct P as [->|[->| ->]]; eexists; reflexivity). cbn [bind].
    assert (same_model attr wbt wbi = Ok tt) as ->.
    { unfold same_model. destruct attr as [[|a k]|]; [reflexivity| |reflexivity]. destruct (M _ eq_refl) as (v & -> & ->); [discriminate|]. rewrite String.eqb_refl. reflexivity. }
    cbn [bind]. rewrite T. eexists. reflexivity.
Qed.
(** C139: the linear method is given exactly the altitudes that are not above the highest orography near by: two methods that agree on all such lists of known points are the same. *)
Theorem C139_known l1 l2 nearest ps d : length d = length ps ->
  (forall n known, (forall i v, In (i, v) known <-> exists p, nth_error ps i = Some p /\ nth i d None = Some v /\ v <= p_nearby p) -> l1 n known = l2 n known) ->
  horizontally l1 nearest ps d = horizontally l2 nearest ps d.
Proof.
  intros L H. unfold horizontally. assert (E : interpolate_missing l1 (Some (map p_orog ps)) true (below_nearby ps d) d = interpolate_missing l2 (Some (map p_orog ps)) true (below_nearby ps d) d); [|rewrite E; reflexivity].
  unfold interpolate_missing. assert (G : l1 (length d) (known_points (below_nearby ps d) d) = l2 (length d) (known_points (below_nearby ps d) d)); [|rewrite G; reflexivity].
  apply H. intros i v. rewrite known_points_spec. unfold known_in, below_nearby. split.
  - intros [[I K] B]. destruct (nth_error ps i) as [p|] eqn:P; [|apply nth_error_None in P; lia]. exists p. split; [reflexivity|]. split; [exact K|].
    clear H. revert d L I K B. induction ps as [|q ps IH] in i, P |- *; intros [|o d] L I K B; try discriminate L; [destruct i; discriminate P|].
    destruct i as [|i]; cbn in *; [injection P as ->; subst o; apply Qle_bool_iff, B|]. apply (IH i P d); [lia|lia|exact K|exact B].
  - intros (p & P & K & B). assert (I : (i < length d)%nat) by (rewrite L; apply nth_error_Some; congruence). split; [split; assumption|].
    clear H. revert d L I K. induction ps as [|q ps IH] in i, P |- *; intros [|o d] L I K; try discriminate L; [destruct i; discriminate P|].
    destruct i as [|i]; cbn in *; [injection P as ->; subst o; apply Qle_bool_iff, B|]. apply (IH i P d); [lia|lia|exact K].
Qed.
Lemma isort_map {A B} (f : A -> B) (leA : A -> A -> bool) (leB : B -> B -> bool) : (forall x y, leB (f x) (f y) = leA x y) -> forall l, isort leB (map f l) = map f (isort leA l).
Proof.
  intros H l. induction l as [|x l IH]; [reflexivity|]. cbn [map isort]. rewrite IH. generalize (isort leA l). intro m. induction m as [|y m IM]; [reflexivity|]. cbn [map insert]. rewrite H. destruct (leA x y); [reflexivity|]. cbn [map]. rewrite IM. reflexivity.
Qed.
(** C139: the levels of the integral are taken from the highest down, each with its own values. *)
Theorem C139_levels {A} heights (l : list A) : length heights = length l ->
  Permutation (combine heights l) (combine (by_height heights heights) (by_height heights l)) /\ StronglySorted (fun a b => b <= a) (by_height heights heights).
Proof.
  intro L. unfold by_height. set (le := fun a b : Q * A => (fst a <=? fst b)%Q). set (s := isort le (combine heights l)).
  assert (D : combine heights heights = map (fun e => (fst e, fst e)) (combine heights l)) by (clear s; revert l L; induction heights as [|h r IH]; intros [|x l] L; try discriminate L; [reflexivity|]; cbn; rewrite <- IH; [reflexivity|now injection L]).
  assert (S : isort (fun a b : Q * Q => (fst a <=? fst b)%Q) (combine heights heights) = map (fun e => (fst e, fst e)) s) by (rewrite D; apply isort_map; reflexivity).
  rewrite S, <- map_rev, map_map. cbn [snd]. split.
  - assert (P : Permutation (combine heights l) (rev s)) by (rewrite <- Permutation_rev; apply isort_perm). assert (Z : forall m : list (Q * A), combine (map (fun x => fst x) m) (map snd m) = m) by (induction m as [|[a b] m IH]; [reflexivity|]; cbn; rewrite IH; reflexivity). rewrite Z. exact P.
  - assert (SO : StronglySorted (fun a b : Q * A => fst a <= fst b) s).
    { apply isort_sorted; unfold le; intros; [now apply Qle_bool_iff| |eapply Qle_trans; eassumption]. destruct (Qlt_le_dec (fst y) (fst x)) as [W|W]; [apply Qlt_le_weak, W|]. apply Qle_bool_iff in W. congruence. }
    clear S D. clearbody s. induction SO as [|x m SO IH F]; [constructor|]. cbn [rev]. rewrite map_app. cbn [map].
    assert (G : forall k : list Q, StronglySorted (fun a b => b <= a) k -> (forall a, In a k -> fst x <= a) -> StronglySorted (fun a b => b <= a) (k ++ [fst x])).
    { clear. intros k SK. induction SK as [|a k SK IH F]; intro B; [repeat constructor|]. cbn. constructor; [apply IH; intros b Q; apply B; now right|]. apply Forall_app. split; [exact F|]. repeat constructor. apply B. now left. }
    apply G; [exact IH|]. intros a Q. apply in_map_iff in Q as (e & <- & Q). apply in_rev in Q. rewrite Forall_forall in F. apply F, Q.
Qed.
(** C139: with bounds, the highest height is the upper bound of the level that is highest. *)
Theorem C139_highest wbt wbi bs top : c_bounds wbi = Some bs -> length (c_heights wbi) = length bs -> highest wbt wbi = Ok top ->
  exists h b, In (h, b) (combine (c_heights wbi) bs) /\ top = snd b /\ forall a, In a (c_heights wbi) -> a <= h.
Proof.
  unfold highest. intros -> L H. destruct (C139_levels _ bs L) as [P S]. destruct (by_height (c_heights wbi) bs) as [|b r] eqn:B; [discriminate H|]. assert (E : snd b = top) by congruence. subst top.
  destruct (by_height (c_heights wbi) (c_heights wbi)) as [|h k] eqn:HB.
  { exfalso. assert (Z := Permutation_length P). cbn in Z. rewrite combine_length in Z. assert (N : length (by_height (c_heights wbi) bs) = 0%nat) by (unfold by_height; rewrite map_length, rev_length, isort_length, combine_length; lia). rewrite B in N. discriminate N. }
  exists h, b. split; [apply (Permutation_in _ (Permutation_sym P)); now left|]. split; [reflexivity|]. intros a Q.
  assert (Q2 : In a (h :: k)). { rewrite <- HB. unfold by_height. apply in_map_iff. exists (a, a). split; [reflexivity|]. apply in_rev. rewrite rev_involutive. apply (Permutation_in _ (isort_perm _ _)). revert Q. clear. induction (c_heights wbi) as [|x l IH]; [intros []|]. intros [->|Q]; [now left|right; now apply IH]. }
  inversion S as [|? ? _ F]. subst. rewrite Forall_forall in F. destruct Q2 as [<-|Q2]; [apply Qle_refl|apply F, Q2].
Qed.
Example C139_highest_case :
  let wbi := {| c_attributes := []; c_heights := [100; 0; 200]; c_bounds := Some [(50, 150); (0, 50); (150, 250)]; c_slices := [] |} in
  highest wbi wbi = Ok 250 /\ by_height (c_heights wbi) (c_heights wbi) = [200; 100; 0] /\ by_height (c_heights wbi) [1; 2; 3] = [3; 1; 2].
Proof. vm_compute. repeat split; reflexivity. Qed.
(** C139: the name and threshold of each phase change, and where the highest height is from: the bounds of the integral, or, when it has none, the last height of the temperatures. *)
Theorem C139_fields strat root linear nearest phase interp attr wbt wbi sites out : process strat root linear nearest phase interp attr wbt wbi sites = Ok out ->
  exists thr top, highest wbt wbi = Ok top /\
    ((phase = "snow-sleet" /\ thr == 90 /\ fst out = "altitude_of_snow_falling_level") \/
     (phase = "sleet-rain" /\ thr == 2025 # 10 /\ fst out = "altitude_of_rain_falling_level") \/
     (phase = "hail-rain" /\ thr == 5000 /\ fst out = "altitude_of_rain_from_hail_falling_level"))%string /\
    length (snd out) = Nat.min (length (c_slices wbi)) (length (c_slices wbt)) /\
    forall k, (k < length (snd out))%nat ->
      let ps := points_of sites (map (by_height (c_heights wbi)) (nth k (c_slices wbi) [])) (nth k (c_slices wbt) []) in
      let found := map (level_at strat root thr top (by_height (c_heights wbi) (c_heights wbi)) (c_heights wbt)) ps in
      nth k (snd out) [] = if interp then horizontally linear nearest ps found else found.
Proof.
  unfold process. intro H. destruct (phase_change phase) as [[t n]|] eqn:P; [|discriminate H]. cbn [bind] in H. destruct (same_model attr wbt wbi) as [[]|] eqn:M; [|discriminate H]. cbn [bind] in H.
  destruct (highest wbt wbi) as [top|] eqn:T; [|discriminate H]. cbn [bind fst snd] in H. exists t, top. split; [reflexivity|].
  assert (O : out = (("altitude_of_" ++ n ++ "_level")%string, zipw (fun i t0 => slice_levels strat root linear nearest interp t top (by_height (c_heights wbi) (c_heights wbi)) (c_heights wbt) (points_of sites (map (by_height (c_heights wbi)) i) t0)) (c_slices wbi) (c_slices wbt))) by congruence.
  clear H M T. subst out. cbn [fst snd]. split.
  { unfold phase_change in P. destruct (String.eqb_spec phase "snow-sleet") as [->|_]; [injection P as <- <-; left; repeat split; reflexivity|].
    destruct (String.eqb_spec phase "sleet-rain") as [->|_]; [injection P as <- <-; right; left; repeat split; reflexivity|].
    destruct (String.eqb_spec phase "hail-rain") as [->|_]; [injection P as <- <-; right; right; repeat split; reflexivity|discriminate P]. }
  clear P. generalize (c_slices wbi), (c_slices wbt). induction l as [|a l IH]; intros [|b m]; cbn [zipw length Nat.min]; try (split; [reflexivity|intros k K; inversion K]).
  destruct (IH m) as [IH1 IH2]. split; [rewrite IH1; reflexivity|]. intros [|k] K; [reflexivity|]. cbn [nth]. apply IH2. lia.
Qed.

(** ** the order of the heights of the temperatures matters *)
(** exact for squares *)
Definition whole_root (x : Q) : Q := Z.sqrt (Qnum (Qred x)) # Pos.sqrt (Qden (Qred x)).
Definition wbi0 := {| c_attributes := []; c_heights := [0; 100; 200]; c_bounds := None; c_slices := [[[400; 300; 200]]] |}.
Definition wbt0 := {| c_attributes := []; c_heights := [0; 100; 200]; c_bounds := None; c_slices := [[[3; 2; 1]]] |}.
Definition wbt0_down := {| c_attributes := []; c_heights := [200; 100; 0]; c_bounds := None; c_slices := [[[1; 2; 3]]] |}.
Definition sites0 := [{| s_orog := 50; s_nearby := 60; s_land := 1 |}].
Definition nowhere : griddata := fun _ _ => None.
(** The same temperatures with their levels listed from the top down: the highest height is then the lowest one. (The levels of the integral are put in order, those of the temperatures are not.) *)
Theorem C139_temperature_order_refuted :
  process first_crossing whole_root nowhere nowhere "snow-sleet" true None wbt0 wbi0 sites0 = Ok ("altitude_of_snow_falling_level"%string, [[Some 250]]) /\
  process first_crossing whole_root nowhere nowhere "snow-sleet" true None wbt0_down wbi0 sites0 = Ok ("altitude_of_snow_falling_level"%string, [[Some 50]]).
Proof. split; vm_compute; reflexivity. Qed.

(** Cases: integral crossing the threshold; sea with the line carried on down; land filled from its neighbour but not above the orography. *)
Definition wbi1 := {| c_attributes := [("mosg__model_configuration", "uk")]%string; c_heights := [0; 100; 200]; c_bounds := Some [(0, 50); (50, 150); (150, 250)]; c_slices := [[[150; 50; 0]; [2255 # 32; 0; 0]; [10; 0; 0]]] |}.
Definition wbt1 := {| c_attributes := [("mosg__model_configuration", "uk")]%string; c_heights := [0; 100; 200]; c_bounds := None; c_slices := [[[2; 1; 0]; [0; -1; -2]; [-3; -4; -5]]] |}.
Definition sites1 := [{| s_orog := 10; s_nearby := 100; s_land := 1 |}; {| s_orog := 0; s_nearby := 0; s_land := 0 |}; {| s_orog := 30; s_nearby := 80; s_land := 1 |}].
Definition shown (r : result (string * list field)) := match r with Ok (_, l) => map (map (option_map Qred)) l | Err _ => [] end.
Example C139_case :
  shown (process first_crossing whole_root nowhere (nearest_grid 3) "snow-sleet" true (Some "mosg__model_configuration"%string) wbt1 wbi1 sites1) = [[Some 70; Some (- (125 # 2)); Some (- (125 # 2))]] /\
  shown (process first_crossing whole_root nowhere (nearest_grid 3) "snow-sleet" false None wbt1 wbi1 sites1) = [[Some 70; Some (- (125 # 2)); None]] /\
  shown (process first_crossing whole_root nowhere (nearest_grid 3) "sleet-rain" false None wbt1 wbi1 sites1) = [[None; Some (- (325 # 2)); None]] /\
  process first_crossing whole_root nowhere (nearest_grid 3) "sleet-snow" false None wbt1 wbi1 sites1 = Err ValueError.
Proof. repeat split; vm_compute; reflexivity. Qed.
Example C139_column_case : column [200; 100; 0] [0; 50; 150].
Proof.
  constructor; [reflexivity|cbn; lia| |].
  - intros i j [H1 H2]. cbn in H2. destruct j as [|[|[|j]]]; try lia; destruct i as [|[|i]]; try lia; reflexivity.
  - intros i j [H1 H2]. cbn in H2. destruct j as [|[|[|j]]]; try lia; destruct i as [|[|[|i]]]; try lia; discriminate.
Qed.

(** A square root on a grid of [n] to the unit has these properties. *)
Definition grid_root (n : positive) (x : Q) : Q := Z.sqrt_up (Qceiling (x * (inject_Z (Zpos n) * inject_Z (Zpos n)))) # n.
Lemma sqrt_up_ge a : (a <= Z.sqrt_up a * Z.sqrt_up a)%Z.
Proof. destruct (Z.lt_ge_cases 0 a) as [H|H]; [apply Z.sqrt_up_spec in H; lia|]. rewrite Z.sqrt_up_eqn0 by exact H. lia. Qed.
Theorem C139_square_root_case n : square_root (2 / inject_Z (Zpos n)) (grid_root n).
Proof.
  set (N := inject_Z (Zpos n)). assert (N1 : 1 <= N) by (unfold N; change 1 with (inject_Z 1); rewrite <- Zle_Qle; lia). assert (NN : 0 < N * N) by (apply Qmult_lt_0_compat; lra).
  assert (G : forall x, 0 <= x -> let K := inject_Z (Z.sqrt_up (Qceiling (x * (N * N)))) in grid_root n x == K / N /\ 0 <= K /\ x * (N * N) <= K * K /\ (K == 0 \/ (K - 1) * (K - 1) <= x * (N * N))).
  { intros x X K. set (m := Qceiling (x * (N * N))) in *. assert (K0 : 0 <= K) by (unfold K; change 0 with (inject_Z 0); rewrite <- Zle_Qle; apply Z.sqrt_up_nonneg).
    split; [unfold grid_root; rewrite Qmake_Qdiv; reflexivity|]. split; [exact K0|]. split.
    - eapply Qle_trans; [apply Qle_ceiling|]. fold m. unfold K. rewrite <- inject_Z_mult, <- Zle_Qle. apply sqrt_up_ge.
    - destruct (Z.lt_ge_cases 0 m) as [H|H].
      + right. apply Z.sqrt_up_spec in H. destruct H as [H _]. unfold Z.pred in H. pose proof (Qceiling_lt (x * (N * N))) as C. fold m in C.
        set (k := Z.sqrt_up m) in *. assert (H' : ((k + -1) * (k + -1) <= m - 1)%Z) by lia. rewrite Zle_Qle, inject_Z_mult, inject_Z_plus in H'. change (inject_Z (-1)) with (- (1)) in H'. fold K in H'.
        assert (E : (K - 1) * (K - 1) == (K + - (1)) * (K + - (1))) by ring. lra.
      + left. unfold K. rewrite Z.sqrt_up_eqn0 by exact H. reflexivity. }
  split; [|split].
  - intros x X. destruct (G x X) as (E & K0 & A & B). set (K := inject_Z (Z.sqrt_up _)) in *. clearbody K. rewrite E. split; [apply Qle_shift_div_l; lra|].
    assert (D : K / N * (K / N) - x == (K * K - x * (N * N)) / (N * N)) by (field; lra). apply (Qle_trans _ ((K * K - x * (N * N)) / (N * N))).
    { assert (P : 0 <= (K * K - x * (N * N)) / (N * N)) by (apply Qle_shift_div_l; lra). apply Qabs_Qle_condition. clear - D P. generalize dependent ((K * K - x * (N * N)) / (N * N)). generalize (K / N * (K / N) - x). intros u w D P. lra. }
    apply Qle_shift_div_r; [exact NN|]. assert (R : 2 / N * (1 + x) * (N * N) == 2 * (1 + x) * N) by (field; lra). rewrite R.
    assert (S1 : 0 <= (K - 1 - N) * (K - 1 - N)) by (destruct (Qlt_le_dec (K - 1 - N) 0); [assert (Y : (K - 1 - N) * (K - 1 - N) == - (K - 1 - N) * - (K - 1 - N)) by ring; rewrite Y; apply Qmult_le_0_compat; lra|apply Qmult_le_0_compat; assumption]).
    assert (X1 : 0 <= x * N) by (apply Qmult_le_0_compat; lra). assert (X2 : 0 <= x * (N * N)) by (apply Qmult_le_0_compat; lra).
    destruct B as [B|B]; [rewrite B; lra|].
    assert (T : 2 * (K - 1) <= (1 + x) * N). { apply (Qmult_le_r _ _ N); [lra|]. assert (Y : (K - 1 - N) * (K - 1 - N) == (K - 1) * (K - 1) - 2 * (K - 1) * N + N * N) by ring. assert (W : (1 + x) * N * N == N * N + x * (N * N)) by ring. lra. }
    assert (Y : K * K == (K - 1) * (K - 1) + 2 * (K - 1) + 1) by ring. assert (W : 2 * (1 + x) * N == (1 + x) * N + N + x * N) by ring. lra.
  - intros x y X Y. unfold grid_root. unfold Qle. cbn [Qnum Qden]. apply Z.mul_le_mono_nonneg_r; [lia|]. apply Z.sqrt_up_le_mono, Qceiling_resp_le, Qmult_le_compat_r; [exact Y|]. fold N. lra.
  - intros x c C X. assert (X0 : 0 <= x) by (eapply Qle_trans; [|exact X]; apply Qmult_le_0_compat; exact C). destruct (G x X0) as (E & K0 & A & _). set (K := inject_Z (Z.sqrt_up _)) in *. clearbody K. rewrite E. apply Qle_shift_div_l; [lra|].
    destruct (Qlt_le_dec K (c * N)) as [H|H]; [|exact H]. exfalso.
    assert (Y : c * c * (N * N) <= x * (N * N)) by (apply Qmult_le_compat_r; lra). assert (Z1 : K * K < c * N * (c * N)) by (eapply Qle_lt_trans; [apply Qmult_le_compat_r; [apply Qlt_le_weak; exact H|exact K0]|]; apply Qmult_lt_l; lra). assert (Z2 : c * N * (c * N) == c * c * (N * N)) by ring. lra.
Qed.

Print Assumptions C139_interpolates_case.
Print Assumptions C139_crossing.
Print Assumptions C139_high.
Print Assumptions C139_sea.
Print Assumptions C139_fit.
Print Assumptions C139_missing.
Print Assumptions C139_order.
Print Assumptions C139_filled.
Print Assumptions C139_complete.
Print Assumptions C139_accepted.
Print Assumptions C139_known.
Print Assumptions C139_levels.
Print Assumptions C139_highest.
Print Assumptions C139_fields.
Print Assumptions C139_temperature_order_refuted.
Print Assumptions C139_square_root_case.
