(** C70. *)
From Verif Require Import Base Model_Percentiles Model_Bias Model_Dist Spec_Dist Spec_DistCase Proofs_Temporal Proofs_Integration Proofs_Percentiles Proofs_Reordering Proofs_Table.
Local Open Scope Q_scope.

(** ** Reading the model *)
Lemma mapM_nth {A B} (f : A -> result B) l r k d d' : mapM f l = Ok r -> (k < length l)%nat -> f (nth k l d) = Ok (nth k r d').
Proof.
  revert r k. induction l as [|x l IH]; intros r k H Hk; [cbn in Hk; lia|]. cbn [mapM] in H. destruct (f x) as [y|] eqn:E; [|discriminate]. cbn [bind] in H. destruct (mapM f l) as [r'|] eqn:E2; [|discriminate]. cbn [bind] in H. apply Ok_inj in H. subst r.
  destruct k as [|k]; cbn [nth]; [exact E|]. apply IH; [exact eq_refl|cbn in Hk; lia].
Qed.
Lemma mapM_len {A B} (f : A -> result B) l r : mapM f l = Ok r -> length r = length l.
Proof.
  revert r. induction l as [|x l IH]; intros r H; cbn [mapM] in H; [apply Ok_inj in H; now subst|]. destruct (f x); [|discriminate]. cbn [bind] in H. destruct (mapM f l) as [r'|]; [|discriminate]. cbn [bind] in H. apply Ok_inj in H. subst. cbn. f_equal. now apply IH.
Qed.
Lemma nth_combine_lt {A B} (l : list A) (m : list B) i d d' : (i < length l)%nat -> length l = length m -> nth i (combine l m) (d, d') = (nth i l d, nth i m d').
Proof. intros H E. apply combine_nth. exact E. Qed.
Lemma nth_map_combine {A B C} (f : A * B -> C) (l : list A) (m : list B) i d d' c : (i < length l)%nat -> length l = length m ->
  nth i (map f (combine l m)) c = f (nth i l d, nth i m d').
Proof. intros H E. rewrite (nth_map_lt f _ i (d, d') c) by (rewrite combine_length; lia). f_equal. now apply combine_nth. Qed.
Lemma existsb_nth {A} (f : A -> bool) l d i : existsb f l = false -> (i < length l)%nat -> f (nth i l d) = false.
Proof.
  intros E H. destruct (f (nth i l d)) eqn:F; [|reflexivity]. assert (X : existsb f l = true) by (apply existsb_exists; exists (nth i l d); split; [now apply nth_In|exact F]). congruence.
Qed.
(** One percentile at one point. *)
Definition point_value ppf d (anyzero : bool) (l s : option Q) (p : Q) : option Q :=
  let v := ppf_at ppf d l s (p / 100) in if (anyzero && is_none v)%bool then l else v.
Lemma percentile_row_at ppf d loc scale p row i : length loc = length scale -> percentile_row ppf d loc scale p = Ok row -> (i < length loc)%nat ->
  nth i row None = point_value ppf d (existsb is_zero scale) (nth i loc None) (nth i scale None) p.
Proof.
  intros E H Hi. unfold percentile_row in H. cbv zeta in H. set (r0 := map _ (combine loc scale)) in H. unfold point_value.
  assert (L0 : length r0 = length loc) by (unfold r0; rewrite map_length, combine_length; lia).
  assert (N0 : nth i r0 None = ppf_at ppf d (nth i loc None) (nth i scale None) (p / 100)) by (unfold r0; rewrite (nth_map_combine _ loc scale i None None None Hi E); reflexivity).
  destruct (existsb is_zero scale).
  - destruct (existsb is_none (map _ (combine r0 loc))); [discriminate|]. apply Ok_inj in H. subst row. rewrite (nth_map_combine _ r0 loc i None None None) by lia. cbn [fst snd andb]. rewrite N0. reflexivity.
  - destruct (existsb is_none r0); [discriminate|]. apply Ok_inj in H. subst row. cbn [andb]. exact N0.
Qed.
Lemma percentile_row_len ppf d loc scale p row : length loc = length scale -> percentile_row ppf d loc scale p = Ok row -> length row = length loc.
Proof.
  intros E H. unfold percentile_row in H. cbv zeta in H. destruct (existsb is_none _); [discriminate|]. apply Ok_inj in H. subst row.
  destruct (existsb is_zero scale); repeat (rewrite ?map_length, ?combine_length); lia.
Qed.
Lemma percentile_row_ok ppf d loc scale p : length loc = length scale ->
  ((exists row, percentile_row ppf d loc scale p = Ok row) <-> forall i, (i < length loc)%nat -> point_value ppf d (existsb is_zero scale) (nth i loc None) (nth i scale None) p <> None).
Proof.
  intro E. split.
  - intros [row H] i Hi. rewrite <- (percentile_row_at ppf d loc scale p row i E H Hi). assert (Hl := percentile_row_len _ _ _ _ _ _ E H). unfold percentile_row in H. cbv zeta in H.
    destruct (existsb is_none _) eqn:N; [discriminate|]. apply Ok_inj in H. rewrite H in N. intro C. assert (X := existsb_nth is_none row None i N ltac:(lia)). rewrite C in X. discriminate.
  - intro H. unfold percentile_row. cbv zeta. set (row := if existsb is_zero scale then _ else _). exists row. destruct (existsb is_none row) eqn:N; [|reflexivity]. exfalso.
    apply existsb_exists in N as (o & Io & No). destruct o; [discriminate|]. apply (In_nth _ _ None) in Io as (i & Hi & Ni).
    assert (Hl : length row = length loc) by (unfold row; destruct (existsb is_zero scale); repeat (rewrite ?map_length, ?combine_length); lia).
    apply (H i); [lia|]. transitivity (nth i row None); [|exact Ni]. clear Ni. unfold row, point_value. set (r0 := map _ (combine loc scale)).
    assert (L0 : length r0 = length loc) by (unfold r0; rewrite map_length, combine_length; lia).
    assert (N0 : nth i r0 None = ppf_at ppf d (nth i loc None) (nth i scale None) (p / 100)) by (unfold r0; rewrite (nth_map_combine _ loc scale i None None None ltac:(lia) E); reflexivity).
    destruct (existsb is_zero scale); cbn [andb].
    + rewrite (nth_map_combine _ r0 loc i None None None) by lia. cbn [fst snd]. now rewrite N0.
    + now rewrite N0.
Qed.
Lemma percentiles_of_inv ppf d loc scale ps rows : percentiles_of ppf d loc scale ps = Ok rows -> length loc = length scale /\ length rows = length ps /\
  forall k i, (k < length ps)%nat -> (i < length loc)%nat ->
    value rows k i = if (is_masked (at_i loc i) || is_masked (at_i scale i))%bool then Masked
                     else match point_value ppf d (existsb is_zero (map fill1 scale)) (fill1 (at_i loc i)) (fill1 (at_i scale i)) (nth k ps 0) with Some q => Num q | None => NotANumber end.
Proof.
  intro H. unfold percentiles_of in H. destruct (length loc =? length scale)%nat eqn:E; [|discriminate]. apply Nat.eqb_eq in E. cbn [negb] in H.
  destruct (mapM _ ps) as [rs|] eqn:M; [|discriminate]. cbn [bind] in H. apply Ok_inj in H. subst rows. split; [exact E|]. split; [rewrite map_length; now apply mapM_len in M|].
  intros k i Hk Hi. assert (Hr := mapM_nth _ _ _ k 0 [] M Hk). assert (Hl := mapM_len _ _ _ M).
  assert (E2 : length (map fill1 loc) = length (map fill1 scale)) by (rewrite !map_length; exact E).
  unfold value. rewrite (nth_map_lt _ rs k [] []) by lia. assert (Lr := percentile_row_len _ _ _ _ _ _ E2 Hr). rewrite map_length in Lr.
  unfold remask. rewrite (nth_map_combine _ (combine loc scale) _ i (NotANumber, NotANumber) None) by (rewrite combine_length; lia). rewrite combine_nth by exact E. cbn [fst snd].
  assert (Hi2 : (i < length (map fill1 loc))%nat) by (rewrite map_length; exact Hi). rewrite (percentile_row_at _ _ _ _ _ _ i E2 Hr Hi2).
  rewrite (nth_map_lt fill1 loc i NotANumber None Hi), (nth_map_lt fill1 scale i NotANumber None) by lia. reflexivity.
Qed.
Lemma point_value_positive ppf d z l s p : 0 < s -> point_value ppf d z (Some l) (Some s) p = Some (l + s * ppf (fst (rescaled d l s)) (snd (rescaled d l s)) (p / 100)).
Proof. intro H. unfold point_value, ppf_at. rewrite (proj2 (Qltb_lt 0 s) H). cbn [is_none]. now rewrite Bool.andb_false_r. Qed.
Lemma centred l s t : 0 < s -> (l + s * t - l) / s == t. Proof. intro H. field. lra. Qed.
Lemma fraction p : 0 < p -> p < 100 -> 0 < p / 100 /\ p / 100 < 1.
Proof. intros A B. split; [apply Qlt_shift_div_l; lra|apply Qlt_shift_div_r; lra]. Qed.
Lemma rescaled_order d l s : 0 < s -> proper_limits d -> match rescaled d l s with (Some x, Some y) => x < y | _ => True end.
Proof.
  intros H P. destruct d as [|[lo|] [hi|]]; cbn in *; auto. apply Qlt_shift_div_l; [exact H|]. apply Qle_lt_trans with (lo - l); [|lra]. apply Qle_lteq. right. field. lra.
Qed.

(** * C70 *)
(** C70: where the scale is positive, the probability of not exceeding the value given for percentile [p] is [p] per cent. *)
Theorem C70_percentile ppf cdf d loc scale ps rows k i l s : standard_distribution ppf cdf -> proper_limits d ->
  percentiles_of ppf d loc scale ps = Ok rows -> (k < length ps)%nat -> (i < length loc)%nat ->
  at_i loc i = Num l -> at_i scale i = Num s -> 0 < s -> 0 < nth k ps 0 -> nth k ps 0 < 100 ->
  exists v, value rows k i = Num v /\ probability_below cdf d l s v == nth k ps 0 / 100.
Proof.
  intros SD Pl H Hk Hi El Es Hs P1 P2. destruct (percentiles_of_inv _ _ _ _ _ _ H) as (_ & _ & V). rewrite (V k i Hk Hi), El, Es. cbn [is_masked orb fill1]. rewrite (point_value_positive _ _ _ _ _ _ Hs).
  eexists. split; [reflexivity|]. destruct (fraction _ P1 P2) as [F1 F2]. assert (R := rescaled_order d l s Hs Pl). destruct SD as [_ _ _ _ Inv Sam].
  destruct d as [|lo hi]; cbn [rescaled fst snd probability_below] in *.
  - rewrite (Sam None None None None _ (ppf None None (nth k ps 0 / 100)) Logic.I Logic.I (centred _ _ _ Hs)). apply Inv; auto.
  - set (a := option_map _ lo) in *. set (b := option_map _ hi) in *. rewrite (Sam a a b b _ (ppf a b (nth k ps 0 / 100))); [apply Inv; auto|destruct a; cbn; auto; reflexivity|destruct b; cbn; auto; reflexivity|now apply centred].
Qed.
(** C70: a higher percentile never has a lower value. *)
Theorem C70_ordered ppf cdf d loc scale ps rows j k i x y : standard_distribution ppf cdf ->
  percentiles_of ppf d loc scale ps = Ok rows -> (j < length ps)%nat -> (k < length ps)%nat -> (i < length loc)%nat ->
  0 < nth j ps 0 -> nth j ps 0 <= nth k ps 0 -> nth k ps 0 < 100 -> value rows j i = Num x -> value rows k i = Num y -> x <= y.
Proof.
  intros SD H Hj Hk Hi P1 P2 P3 Vj Vk. destruct (percentiles_of_inv _ _ _ _ _ _ H) as (_ & _ & V). rewrite (V j i Hj Hi) in Vj. rewrite (V k i Hk Hi) in Vk.
  destruct (is_masked (at_i loc i) || is_masked (at_i scale i))%bool; [discriminate|]. unfold point_value, ppf_at in *.
  destruct (fill1 (at_i loc i)) as [l|], (fill1 (at_i scale i)) as [s|]; cbn [is_none] in *; rewrite ?Bool.andb_true_r in *; try (destruct (existsb _ _); injection Vj as <-; injection Vk as <-; lra).
  - destruct (0 <? s) eqn:S0; cbn [is_none] in *; rewrite ?Bool.andb_false_r, ?Bool.andb_true_r in *.
    + injection Vj as <-. injection Vk as <-. apply Qltb_lt in S0. assert (M := sd_increasing _ _ SD (fst (rescaled d l s)) (snd (rescaled d l s)) (nth j ps 0 / 100) (nth k ps 0 / 100)).
      assert (F1 : 0 < nth j ps 0 / 100) by (apply Qlt_shift_div_l; lra). assert (F2 : nth k ps 0 / 100 < 1) by (apply Qlt_shift_div_r; lra).
      assert (F3 : nth j ps 0 / 100 <= nth k ps 0 / 100) by (unfold Qdiv; apply Qmult_le_compat_r; [exact P2|compute; discriminate]). specialize (M F1 F3 F2). set (u := ppf _ _ (nth j ps 0 / 100)) in *. set (w := ppf _ _ (nth k ps 0 / 100)) in *. nra.
    + destruct (existsb _ _); [|discriminate]. injection Vj as <-. injection Vk as <-. lra.
  - destruct (existsb _ _); [|discriminate]. injection Vj as <-. injection Vk as <-. lra.
  - destruct (existsb _ _); discriminate.
  - destruct (existsb _ _); discriminate.
Qed.
(** C70: values of a truncated distribution with positive scale lie within its limits. *)
Theorem C70_within_limits ppf cdf d loc scale ps rows k i l s v : standard_distribution ppf cdf -> proper_limits d ->
  percentiles_of ppf d loc scale ps = Ok rows -> (k < length ps)%nat -> (i < length loc)%nat ->
  at_i loc i = Num l -> at_i scale i = Num s -> 0 < s -> 0 < nth k ps 0 -> nth k ps 0 < 100 -> value rows k i = Num v -> within_limits d v.
Proof.
  intros SD Pl H Hk Hi El Es Hs P1 P2 Vv. destruct (percentiles_of_inv _ _ _ _ _ _ H) as (_ & _ & V). rewrite (V k i Hk Hi), El, Es in Vv. cbn [is_masked orb fill1] in Vv. rewrite (point_value_positive _ _ _ _ _ _ Hs) in Vv. injection Vv as <-.
  destruct (fraction _ P1 P2) as [F1 F2]. assert (R := rescaled_order d l s Hs Pl). destruct d as [|lo hi]; [exact Logic.I|]. cbn [rescaled fst snd within_limits] in *.
  set (q := nth k ps 0 / 100) in *. clearbody q. destruct (sd_range _ _ SD (option_map (fun v => (v - l) / s) lo) (option_map (fun v => (v - l) / s) hi) q) as [A B]; auto.
  { destruct lo, hi; cbn in *; auto; lra. }
  set (u := ppf _ _ q) in *. clearbody u. split.
  - destruct lo as [lo|]; cbn in *; [|exact Logic.I]. assert (E : lo == l + s * ((lo - l) / s)) by (field; lra). rewrite E at 1. set (w := (lo - l) / s) in *. clearbody w. nra.
  - destruct hi as [hi|]; cbn in *; [|exact Logic.I]. assert (E : hi == l + s * ((hi - l) / s)) by (field; lra). rewrite E. set (w := (hi - l) / s) in *. clearbody w. nra.
Qed.
(** C70: without spread every percentile is the location. *)
Theorem C70_degenerate ppf d loc scale ps rows k i l s : percentiles_of ppf d loc scale ps = Ok rows -> (k < length ps)%nat -> (i < length loc)%nat ->
  at_i loc i = Num l -> at_i scale i = Num s -> s == 0 -> value rows k i = Num l.
Proof.
  intros H Hk Hi El Es Hs. destruct (percentiles_of_inv _ _ _ _ _ _ H) as (Le & _ & V). rewrite (V k i Hk Hi), El, Es. cbn [is_masked orb fill1]. unfold point_value, ppf_at.
  rewrite (proj2 (Qltb_ge 0 s)) by lra. cbn [is_none]. rewrite (proj2 (existsb_exists is_zero (map fill1 scale))); [reflexivity|]. exists (Some s). split; [|now apply Qeqb_eq].
  change (Some s) with (fill1 (Num s)). rewrite <- Es. apply in_map. unfold at_i. apply nth_In. lia.
Qed.
(** C70: ... even where the distribution is truncated and the location is outside: the limits hold for a positive scale only. *)
Theorem C70_limits_refuted : exists ppf cdf d loc scale ps rows k i v, standard_distribution ppf cdf /\ proper_limits d /\ percentiles_of ppf d loc scale ps = Ok rows /\ value rows k i = Num v /\ ~ within_limits d v.
Proof.
  exists toy_ppf, toy_cdf, (TruncNorm (Some 0) None), [Num (-1)], [Num 0], [50], [[Num (-1)]], 0%nat, 0%nat, (-1). split; [exact toy_standard|]. split; [exact Logic.I|]. split; [reflexivity|]. split; [reflexivity|]. intros [C _]. cbn in C. lra.
Qed.
(** C70: the result is masked exactly where a parameter is. *)
Theorem C70_mask ppf d loc scale ps rows k i : percentiles_of ppf d loc scale ps = Ok rows -> (k < length ps)%nat -> (i < length loc)%nat ->
  (value rows k i = Masked <-> at_i loc i = Masked \/ at_i scale i = Masked) /\ value rows k i <> NotANumber.
Proof.
  intros H Hk Hi. destruct (percentiles_of_inv _ _ _ _ _ _ H) as (Le & _ & V). assert (Vk := V k i Hk Hi). rewrite Vk. clear V.
  assert (N : point_value ppf d (existsb is_zero (map fill1 scale)) (fill1 (at_i loc i)) (fill1 (at_i scale i)) (nth k ps 0) <> None).
  { unfold percentiles_of in H. rewrite Le, Nat.eqb_refl in H. cbn [negb] in H. destruct (mapM _ ps) as [rs|] eqn:M; [|discriminate]. assert (Hr := mapM_nth _ _ _ k 0 [] M Hk).
    assert (X := proj1 (percentile_row_ok ppf d (map fill1 loc) (map fill1 scale) (nth k ps 0) ltac:(rewrite !map_length; exact Le)) (ex_intro _ _ Hr) i ltac:(rewrite map_length; exact Hi)).
    rewrite (nth_map_lt fill1 loc i NotANumber None Hi), (nth_map_lt fill1 scale i NotANumber None) in X by lia. exact X. }
  destruct (at_i loc i), (at_i scale i); cbn [is_masked orb] in *; destruct (point_value _ _ _ _ _ _); split; try split; try congruence; try tauto; intros [C|C]; congruence.
Qed.
(** C70: percentiles are given exactly if every unmasked location is a number and every unmasked scale is positive, or, where it is not, there is a point of scale zero. *)
Theorem C70_accepted ppf d loc scale ps : ps <> [] ->
  ((exists rows, percentiles_of ppf d loc scale ps = Ok rows) <->
   length loc = length scale /\ forall i, (i < length loc)%nat -> at_i loc i <> NotANumber /\
     ((exists s, at_i scale i = Num s /\ 0 < s) \/ at_i scale i = Masked \/ exists j s, (j < length scale)%nat /\ at_i scale j = Num s /\ s == 0)).
Proof.
  intro Ne. unfold percentiles_of. destruct (length loc =? length scale)%nat eqn:E.
  2:{ apply Nat.eqb_neq in E. cbn [negb]. split; [intros [? C]; discriminate|intros [C _]; contradiction]. }
  apply Nat.eqb_eq in E. cbn [negb]. assert (E2 : length (map fill1 loc) = length (map fill1 scale)) by (rewrite !map_length; exact E).
  assert (Z0 : existsb is_zero (map fill1 scale) = true <-> exists j s, (j < length scale)%nat /\ at_i scale j = Num s /\ s == 0).
  { split.
    - intro H. apply existsb_exists in H as (o & Io & Ho). apply in_map_iff in Io as (v & <- & Iv). apply (In_nth _ _ NotANumber) in Iv as (j & Hj & <-). exists j. unfold at_i. destruct (nth j scale NotANumber) as [q| |] eqn:Eq; cbn in Ho; try discriminate. exists q. repeat split; auto. now apply Qeqb_eq.
    - intros (j & s & Hj & Hs & H0). apply existsb_exists. exists (Some s). split; [|now apply Qeqb_eq]. change (Some s) with (fill1 (Num s)). rewrite <- Hs. apply in_map. now apply nth_In. }
  assert (Pt : forall p i, (i < length loc)%nat -> (point_value ppf d (existsb is_zero (map fill1 scale)) (nth i (map fill1 loc) None) (nth i (map fill1 scale) None) p <> None <->
     at_i loc i <> NotANumber /\ ((exists s, at_i scale i = Num s /\ 0 < s) \/ at_i scale i = Masked \/ existsb is_zero (map fill1 scale) = true))).
  { intros p i Hi. rewrite (nth_map_lt fill1 loc i NotANumber None Hi), (nth_map_lt fill1 scale i NotANumber None) by lia. fold (at_i loc i) (at_i scale i). set (z := existsb _ _). clearbody z. unfold point_value, ppf_at.
    assert (P1 : (0 <? 1) = true) by reflexivity.
    destruct (at_i loc i) as [l| |], (at_i scale i) as [s| |]; cbn [fill1]; rewrite ?P1; try (destruct (Qltb_spec 0 s) as [Hs|Hs]); cbn [is_none]; destruct z; cbn [andb];
      (split; [intro H; split; [try discriminate; try (exfalso; now apply H)|try (right; right; reflexivity); try (right; left; reflexivity); try (left; exists s; split; [reflexivity|assumption]); exfalso; now apply H]
              |intros [A B]; try discriminate; try (exfalso; now apply A); exfalso; destruct B as [(s' & B & B')|[B|B]]; try discriminate; try (injection B as <-; lra)]). }
  split.
  - intros [rows H]. split; [exact E|]. destruct (mapM _ ps) as [rs|] eqn:M; [|discriminate]. destruct ps as [|p ps]; [congruence|]. assert (Hr := mapM_nth _ _ _ 0 0 [] M ltac:(cbn; lia)). intros i Hi.
    assert (X := proj1 (percentile_row_ok _ _ _ _ _ E2) (ex_intro _ _ Hr) i). rewrite map_length in X. apply (Pt _ i Hi) in X; [|exact Hi]. rewrite <- Z0. exact X.
  - intros [_ H]. assert (X : exists rs, mapM (percentile_row ppf d (map fill1 loc) (map fill1 scale)) ps = Ok rs).
    { clear Ne. induction ps as [|p ps [rs IH]]; [eexists; reflexivity|]. assert (X : exists row, percentile_row ppf d (map fill1 loc) (map fill1 scale) p = Ok row) by (apply (percentile_row_ok _ _ _ _ _ E2); intros i Hi; rewrite map_length in Hi; apply Pt; [exact Hi|]; rewrite Z0; apply H; exact Hi).
      destruct X as [row X]. exists (row :: rs). cbn [mapM]. rewrite X. cbn [bind]. rewrite IH. reflexivity. }
    destruct X as [rs ->]. eexists. reflexivity.
Qed.
(** C70: asking for a number of percentiles and a list of them is refused; a number gives so many equally spaced percentiles. *)
Theorem C70_which ppf d loc scale n p ps : to_percentiles ppf d loc scale (Some (S n)) (Some (p :: ps)) = Err ValueError /\
  (forall qs rows, to_percentiles ppf d loc scale (Some (S n)) None = Ok (qs, rows) -> length qs = S n /\ length rows = S n /\ forall k, (k < S n)%nat -> nth k qs 0 == 100 * Qn (S k) / Qn (S (S n))) /\
  (forall rows, to_percentiles ppf d loc scale None (Some ps) = Ok rows -> fst rows = ps).
Proof.
  split; [reflexivity|]. split.
  - intros qs rows H. unfold to_percentiles in H. destruct (choose_set_of_percentiles (S n) Quantile) as [l|] eqn:C; [|discriminate]. cbn [bind] in H. destruct (percentiles_of _ _ _ _ l) as [r|] eqn:P; [|discriminate]. cbn [bind] in H. apply Ok_inj in H.
    assert (qs = l) by (apply (f_equal fst) in H; cbn in H; congruence). assert (rows = r) by (apply (f_equal snd) in H; cbn in H; congruence). subst. destruct (percentiles_of_inv _ _ _ _ _ _ P) as (_ & Lr & _).
    destruct (choose_quantile (S n) l C) as [Ll Lv]. repeat split; [exact Ll|lia|exact Lv].
  - intros rows H. unfold to_percentiles in H. destruct (percentiles_of _ _ _ _ ps); [|discriminate]. cbn [bind] in H. apply Ok_inj in H. now subst.
Qed.

(** ** Probabilities *)
Lemma probabilities_inv cdf d k o above n ths loc scale rows : to_probabilities cdf d (Some (k, o)) above n ths loc scale = Ok rows -> length loc = length scale /\ length loc = n /\ length rows = length ths /\
  forall j i, (j < length ths)%nat -> (i < n)%nat ->
  value rows j i = match at_i loc i, at_i scale i with
                   | Masked, _ | _, Masked => Masked
                   | Num l, Num s => if 0 <? k * s + o then let p := cdf (fst (rescaled d (k * l + o) (k * s + o))) (snd (rescaled d (k * l + o) (k * s + o))) ((nth j ths 0 - (k * l + o)) / (k * s + o)) in Num (if above then 1 - p else p) else NotANumber
                   | _, _ => NotANumber
                   end.
Proof.
  intro H. unfold to_probabilities in H. cbv zeta in H. rewrite !map_length in H. destruct (length loc =? length scale)%nat eqn:E; [|discriminate]. destruct (length loc =? n)%nat eqn:E2; [|discriminate]. apply Nat.eqb_eq in E, E2. cbn [negb orb] in H. apply Ok_inj in H. subst rows.
  split; [exact E|]. split; [exact E2|]. split; [now rewrite map_length|]. intros j i Hj Hi. unfold value. rewrite (nth_map_lt _ ths j 0 []) by exact Hj. unfold remask.
  rewrite (nth_map_combine _ (combine (map (convert (k, o)) loc) (map (convert (k, o)) scale)) _ i (NotANumber, NotANumber) None NotANumber) by (rewrite ?map_length, ?combine_length, ?map_length; lia).
  rewrite combine_nth by (rewrite !map_length; exact E). cbn [fst snd]. rewrite (nth_map_combine _ (map fill1 _) (map fill1 _) i None None None) by (rewrite !map_length; lia). cbn [fst snd].
  rewrite (nth_map_lt fill1 (map (convert (k, o)) loc) i NotANumber None), (nth_map_lt fill1 (map (convert (k, o)) scale) i NotANumber None) by (rewrite map_length; lia).
  rewrite (nth_map_lt (convert (k, o)) loc i NotANumber NotANumber), (nth_map_lt (convert (k, o)) scale i NotANumber NotANumber) by lia. fold (at_i loc i) (at_i scale i).
  destruct (at_i loc i) as [l| |], (at_i scale i) as [s| |]; cbn [convert fst snd is_masked orb fill1 cdf_at option_map]; try reflexivity. destruct (0 <? k * s + o); reflexivity.
Qed.
Lemma rescaled_same cdf d l s t : cdf (fst (rescaled d l s)) (snd (rescaled d l s)) ((t - l) / s) = probability_below cdf d l s t.
Proof. destruct d; reflexivity. Qed.
Lemma same_refl a : same a a. Proof. destruct a; cbn; auto. reflexivity. Qed.
(** C70: thresholds in the units of the parameters: the value at a point with positive scale is the probability of not exceeding (or exceeding) the threshold. *)
Theorem C70_probability ppf cdf d above n ths loc scale rows j i l s : standard_distribution ppf cdf -> to_probabilities cdf d (Some (1, 0)) above n ths loc scale = Ok rows ->
  (j < length ths)%nat -> (i < n)%nat -> at_i loc i = Num l -> at_i scale i = Num s -> 0 < s ->
  exists p, value rows j i = Num p /\ 0 <= p <= 1 /\ (if above then p + probability_below cdf d l s (nth j ths 0) == 1 else p == probability_below cdf d l s (nth j ths 0)).
Proof.
  intros SD H Hj Hi El Es Hs. destruct (probabilities_inv _ _ _ _ _ _ _ _ _ _ H) as (_ & _ & _ & V). rewrite (V j i Hj Hi), El, Es. destruct (0 <? 1 * s + 0) eqn:S0; [|apply Qltb_ge in S0; lra].
  set (p := cdf _ _ _). assert (Ep : p == probability_below cdf d l s (nth j ths 0)).
  { unfold p. rewrite rescaled_same. destruct d as [|lo hi]; unfold probability_below; apply (sd_same _ _ SD); try exact Logic.I.
    - assert (E : 1 * s + 0 == s) by ring. rewrite E. assert (E' : 1 * l + 0 == l) by ring. rewrite E'. reflexivity.
    - destruct lo; cbn; auto. assert (E : 1 * s + 0 == s) by ring. rewrite E. assert (E' : 1 * l + 0 == l) by ring. rewrite E'. reflexivity.
    - destruct hi; cbn; auto. assert (E : 1 * s + 0 == s) by ring. rewrite E. assert (E' : 1 * l + 0 == l) by ring. rewrite E'. reflexivity.
    - assert (E : 1 * s + 0 == s) by ring. rewrite E. assert (E' : 1 * l + 0 == l) by ring. rewrite E'. reflexivity. }
  assert (R : 0 <= p <= 1) by apply (sd_probability _ _ SD). cbv zeta. exists (if above then 1 - p else p). split; [reflexivity|]. destruct above; rewrite <- Ep; split; try lra; try ring.
Qed.
(** C70: a higher threshold is never more likely to be exceeded, nor less likely not to be. *)
Theorem C70_probability_ordered ppf cdf d k o above n ths loc scale rows j j' i p q : standard_distribution ppf cdf -> to_probabilities cdf d (Some (k, o)) above n ths loc scale = Ok rows ->
  (j < length ths)%nat -> (j' < length ths)%nat -> (i < n)%nat -> nth j ths 0 <= nth j' ths 0 -> value rows j i = Num p -> value rows j' i = Num q -> if above then q <= p else p <= q.
Proof.
  intros SD H Hj Hj' Hi Le Vp Vq. destruct (probabilities_inv _ _ _ _ _ _ _ _ _ _ H) as (_ & _ & _ & V). rewrite (V j i Hj Hi) in Vp. rewrite (V j' i Hj' Hi) in Vq.
  destruct (at_i loc i) as [l| |], (at_i scale i) as [s| |]; try discriminate. destruct (0 <? k * s + o) eqn:S0; [|discriminate]. apply Qltb_lt in S0. cbv zeta in Vp, Vq. injection Vp as <-. injection Vq as <-.
  set (l' := k * l + o) in *. set (s' := k * s + o) in *. clearbody l' s'.
  assert (M : cdf (fst (rescaled d l' s')) (snd (rescaled d l' s')) ((nth j ths 0 - l') / s') <= cdf (fst (rescaled d l' s')) (snd (rescaled d l' s')) ((nth j' ths 0 - l') / s')).
  { apply (sd_cumulative _ _ SD). unfold Qdiv. apply Qmult_le_compat_r; [lra|]. apply Qlt_le_weak, Qinv_lt_0_compat. exact S0. }
  destruct above; lra.
Qed.
(** C70: probabilities of exceeding and of not exceeding add up to one. *)
Theorem C70_complement cdf d u n ths loc scale rows rows' j i p q : to_probabilities cdf d u true n ths loc scale = Ok rows -> to_probabilities cdf d u false n ths loc scale = Ok rows' ->
  (j < length ths)%nat -> (i < n)%nat -> value rows j i = Num p -> value rows' j i = Num q -> p + q == 1.
Proof.
  intros H H' Hj Hi Vp Vq. destruct u as [[k o]|]; [|discriminate]. destruct (probabilities_inv _ _ _ _ _ _ _ _ _ _ H) as (_ & _ & _ & V). destruct (probabilities_inv _ _ _ _ _ _ _ _ _ _ H') as (_ & _ & _ & V'). rewrite (V j i Hj Hi) in Vp. rewrite (V' j i Hj Hi) in Vq.
  destruct (at_i loc i) as [l| |], (at_i scale i) as [s| |]; try discriminate. destruct (0 <? k * s + o); [|discriminate]. cbv zeta in Vp, Vq. injection Vp as <-. injection Vq as <-. ring.
Qed.
(** C70: probabilities are masked exactly where a parameter is. *)
Theorem C70_probability_mask cdf d u above n ths loc scale rows j i : to_probabilities cdf d u above n ths loc scale = Ok rows -> (j < length ths)%nat -> (i < n)%nat ->
  (value rows j i = Masked <-> at_i loc i = Masked \/ at_i scale i = Masked).
Proof.
  intros H Hj Hi. destruct u as [[k o]|]; [|discriminate]. destruct (probabilities_inv _ _ _ _ _ _ _ _ _ _ H) as (_ & _ & _ & V). rewrite (V j i Hj Hi).
  destruct (at_i loc i) as [l| |], (at_i scale i) as [s| |]; try (destruct (0 <? k * s + o)); cbv zeta; split; try congruence; try tauto; intros [C|C]; congruence.
Qed.
(** C70: percentiles and probabilities are those of one distribution: the value of percentile [p], used as threshold, is not exceeded with probability [p] per cent. *)
Theorem C70_consistent ppf cdf d loc scale ps rows k i v n prows ths j l s : standard_distribution ppf cdf -> proper_limits d -> percentiles_of ppf d loc scale ps = Ok rows -> (k < length ps)%nat ->
  0 < nth k ps 0 -> nth k ps 0 < 100 -> at_i loc i = Num l -> at_i scale i = Num s -> 0 < s -> value rows k i = Num v ->
  to_probabilities cdf d (Some (1, 0)) false n ths loc scale = Ok prows -> (j < length ths)%nat -> (i < n)%nat -> nth j ths 0 == v -> exists p, value prows j i = Num p /\ p == nth k ps 0 / 100.
Proof.
  intros SD Pl H Hk P1 P2 El Es Hs Vv H' Hj Hi Et. destruct (probabilities_inv _ _ _ _ _ _ _ _ _ _ H') as (_ & Ln & _). subst n.
  destruct (C70_percentile ppf cdf d loc scale ps rows k i l s SD Pl H Hk Hi El Es Hs P1 P2) as (v' & Vv' & Pv). assert (v' = v) by congruence. subst v'.
  destruct (C70_probability ppf cdf d false _ ths loc scale prows j i l s SD H' Hj Hi El Es Hs) as (p & Vp & _ & Ep). exists p. split; [exact Vp|]. rewrite Ep, <- Pv.
  destruct d as [|lo hi]; unfold probability_below; apply (sd_same _ _ SD); auto using same_refl; rewrite Et; reflexivity.
Qed.
(** C70: units with the same zero make no difference to the distributions EMOS is trained for. *)
Theorem C70_units ppf cdf d k above n ths loc scale rows rows' j i p : standard_distribution ppf cdf -> (d = Norm \/ d = TruncNorm (Some 0) None) -> 0 < k ->
  to_probabilities cdf d (Some (1, 0)) above n ths loc scale = Ok rows -> to_probabilities cdf d (Some (k, 0)) above n (map (Qmult k) ths) loc scale = Ok rows' ->
  (j < length ths)%nat -> (i < n)%nat -> value rows j i = Num p -> exists q, value rows' j i = Num q /\ q == p.
Proof.
  intros SD Hd Hk H H' Hj Hi Vp. destruct (probabilities_inv _ _ _ _ _ _ _ _ _ _ H) as (_ & _ & _ & V). destruct (probabilities_inv _ _ _ _ _ _ _ _ _ _ H') as (_ & _ & _ & V'). rewrite map_length in V'. rewrite (V j i Hj Hi) in Vp. rewrite (V' j i Hj Hi).
  destruct (at_i loc i) as [l| |], (at_i scale i) as [s| |]; try discriminate. destruct (Qltb_spec 0 (1 * s + 0)) as [S0|S0]; [|discriminate]. destruct (Qltb_spec 0 (k * s + 0)) as [S1|S1]; [|assert (0 < k * s) by nra; lra]. cbv zeta in *. injection Vp as <-. eexists. split; [reflexivity|].
  rewrite (nth_map_lt (Qmult k) ths j 0 0) by exact Hj. set (t := nth j ths 0). clearbody t.
  assert (E : cdf (fst (rescaled d (k * l + 0) (k * s + 0))) (snd (rescaled d (k * l + 0) (k * s + 0))) ((k * t - (k * l + 0)) / (k * s + 0)) == cdf (fst (rescaled d (1 * l + 0) (1 * s + 0))) (snd (rescaled d (1 * l + 0) (1 * s + 0))) ((t - (1 * l + 0)) / (1 * s + 0))).
  { destruct Hd as [->| ->]; cbn [rescaled fst snd option_map]; apply (sd_same _ _ SD); cbn [same]; auto; field; split; lra. }
  destruct above; rewrite E; reflexivity.
Qed.
(** C70: other zeros do: a scale is converted like a temperature (here 2 degrees Celsius of spread become 275.15 K). *)
Theorem C70_units_refuted : exists cdf d (k o : Q) ths loc scale rows rows' p q, 0 < k /\ standard_distribution toy_ppf cdf /\
  to_probabilities cdf d (Some (1, 0)) false 1 ths loc scale = Ok rows /\ to_probabilities cdf d (Some (k, o)) false 1 (map (fun t => k * t + o) ths) loc scale = Ok rows' /\
  value rows 0 0 = Num p /\ value rows' 0 0 = Num q /\ ~ p == q.
Proof.
  exists toy_cdf, Norm, 1, (27315 # 100), [12], [Num 10], [Num 2]. eexists _, _, _, _. split; [lra|]. split; [exact toy_standard|]. split; [reflexivity|]. split; [reflexivity|]. split; [reflexivity|]. split; [reflexivity|]. vm_compute. discriminate.
Qed.
(** C70: where there is no spread the probability is not a number, although every percentile is the location. *)
Theorem C70_zero_scale_refuted : exists ppf cdf loc scale ps rows ths prows, standard_distribution ppf cdf /\ percentiles_of ppf Norm loc scale ps = Ok rows /\ value rows 0 0 = Num 5 /\
  to_probabilities cdf Norm (Some (1, 0)) true 1 ths loc scale = Ok prows /\ value prows 0 0 = NotANumber.
Proof.
  exists toy_ppf, toy_cdf, [Num 5], [Num 0], [50], [[Num 5]], [7], [[NotANumber]]. split; [exact toy_standard|]. repeat split; reflexivity.
Qed.
(** C70: a missing distribution, or a truncated one without limits, is refused. *)
Theorem C70_distribution name known shape : init_distribution name known shape = Ok tt <-> (name = "truncnorm"%string /\ shape = true) \/ (name <> "truncnorm"%string /\ known name = true).
Proof.
  unfold init_distribution. destruct (String.eqb_spec name "truncnorm") as [->|N]; [destruct shape|destruct (known name)]; split; intro H; try discriminate; auto; destruct H as [[A B]|[A B]]; congruence.
Qed.
(** Two points, one without spread, one masked: the 25, 50 and 75 per cent values of a truncated distribution and probabilities at two thresholds. *)
Example C70_case : exists rows prows, percentiles_of toy_ppf (TruncNorm (Some 0) None) [Num 3; Num 1; Num 4] [Num 2; Num 0; Masked] [25; 50; 75] = Ok rows /\
  value rows 1 0 = Num (3 + 2 * ((0 - 3) / 2 + odds (50 / 100))) /\ 3 + 2 * ((0 - 3) / 2 + odds (50 / 100)) == 2 /\ value rows 2 1 = Num 1 /\ value rows 0 2 = Masked /\
  to_probabilities toy_cdf Norm (Some (1, 0)) true 2 [3; 5] [Num 3; Num 4] [Num 2; Num 1] = Ok prows /\ (exists p, value prows 0 0 = Num p /\ p == 1 # 2) /\ (exists p, value prows 1 0 = Num p /\ p == 1 # 4).
Proof.
  eexists _, _. split; [reflexivity|]. split; [reflexivity|]. split; [reflexivity|]. split; [reflexivity|]. split; [reflexivity|]. split; [reflexivity|]. split; eexists; split; reflexivity.
Qed.

Print Assumptions C70_percentile.
Print Assumptions C70_ordered.
Print Assumptions C70_within_limits.
Print Assumptions C70_degenerate.
Print Assumptions C70_limits_refuted.
Print Assumptions C70_mask.
Print Assumptions C70_accepted.
Print Assumptions C70_which.
Print Assumptions C70_probability.
Print Assumptions C70_probability_ordered.
Print Assumptions C70_complement.
Print Assumptions C70_probability_mask.
Print Assumptions C70_consistent.
Print Assumptions C70_units.
Print Assumptions C70_units_refuted.
Print Assumptions C70_zero_scale_refuted.
Print Assumptions C70_distribution.
