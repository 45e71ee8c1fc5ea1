From Verif Require Import Base Interp Model_Rescale Proofs_Rescale Proofs_Weights Model_Nbhood Model_Spatial Model_NbhoodCube Proofs_NbhoodCube Proofs_Nbhood Model_Lightning Spec_Lightning.
Local Open Scope Q_scope.

Lemma raise_length v limit a g : length a = length g -> length (raise_to v limit a g) = length g.
Proof. intro L. unfold raise_to. rewrite zipw_length by exact L. exact L. Qed.
Lemma raise_nth v limit a g i : length a = length g -> (i < length g)%nat ->
  nth i (raise_to v limit a g) 0 = if (limit <=? nth i a 0) && (nth i g 0 <? v) then v else nth i g 0.
Proof. intros L Hi. unfold raise_to. rewrite (zipw_nth _ a g i 0 0 0) by lia. reflexivity. Qed.

Lemma raise_raise f g rate high torr :
  let s1 := if (0 <=? rate) && (g <? pl2) then pl2 else g in
  let s2 := if (lrt_lev1 f <=? rate) && (s1 <? pl1) then pl1 else s1 in
  let s3 := if (2 # 5 <=? high) && (s2 <? pl2) then pl2 else s2 in
  let s4 := if (1 # 5 <=? torr) && (s3 <? pl1) then pl1 else s3 in
  s4 == raised f g rate high torr.
Proof.
  cbv zeta. unfold raised, lrt_lev1, pl1, pl2. assert (E : (1 # 2) + f * 2 / 360 == (1 # 2) + f / 180) by field.
  assert (E' : ((1 # 2) + f * 2 / 360 <=? rate) = ((1 # 2) + f / 180 <=? rate)).
  { destruct (Qleb_spec ((1 # 2) + f * 2 / 360) rate), (Qleb_spec ((1 # 2) + f / 180) rate); trivial; lra. }
  rewrite E'. clear E E'. destruct ((1 # 2) + f / 180 <=? rate), (0 <=? rate), (2 # 5 <=? high), (1 # 5 <=? torr); cbn [orb andb];
    destruct (Qltb_spec g (1 # 4)); cbn [orb andb]; repeat (match goal with |- context [?a <? ?b] => lazymatch a with context [if _ then _ else _] => fail | _ => destruct (Qltb_spec a b) end end; cbn [orb andb]); qmm; lra.
Qed.

Lemma limit_value p : (if p <? 1 # 20 then rescale_pt 0 (1 # 20) (67 # 10000) (1 # 4) true p else rescale_pt (1 # 20) (1 # 10) (1 # 4) 1 true p) == precip_limit p.
Proof.
  unfold rescale_pt, precip_limit, clip. cbv zeta.
  assert (A : (p - 0) * ((1 # 4) - (67 # 10000)) / ((1 # 20) - 0) + (67 # 10000) == (67 # 10000) + ((1 # 4) - (67 # 10000)) * (20 * p)) by field.
  assert (B : (p - (1 # 20)) * (1 - (1 # 4)) / ((1 # 10) - (1 # 20)) + (1 # 4) == (1 # 4) + (3 # 4) * (20 * p - 1)) by field.
  destruct (Qltb_spec p (1 # 20)).
  - rewrite A. clear A B. qbs; qmm; lra.
  - rewrite B. clear A B. qbs; qmm; lra.
Qed.

Lemma ice_value top i : 0 < top -> rescale_pt 0 1 0 top true i == top * unit i.
Proof.
  intro T. unfold rescale_pt, clip, unit. assert (A : (i - 0) * (top - 0) / (1 - 0) + 0 == top * i) by field. cbv zeta. rewrite A.
  destruct (Qlt_le_dec i 0) as [N|N]; [|destruct (Qlt_le_dec 1 i) as [M|M]].
  - assert (X : top * i <= 0) by nra. assert (U : Qmax 0 (Qmin 1 i) == 0) by (qmm; lra). rewrite U. qmm; lra.
  - assert (X : top <= top * i) by nra. assert (U : Qmax 0 (Qmin 1 i) == 1) by (qmm; lra). rewrite U. qmm; lra.
  - assert (X : 0 <= top * i <= top) by nra. assert (U : Qmax 0 (Qmin 1 i) == i) by (qmm; lra). rewrite U. qmm; lra.
Qed.
Lemma ice_step_ok f ice g tp o : ice_step f ice g tp = Ok o -> exists i, at_threshold (fst tp) ice = Ok i /\
  (length i = length g -> length o = length g /\
   forall k, (k < length g)%nat -> nth k o 0 == if f <? 150 then Qmax (ice_effect f (snd tp) (nth k i 0)) (nth k g 0) else nth k g 0) \/ ~ 0 < snd tp.
Proof.
  unfold ice_step. intro H. destruct (at_threshold (fst tp) ice) as [i|e]; [|discriminate]. cbn [bind] in H. exists i. destruct (Qlt_le_dec 0 (snd tp)) as [C|C]; [left|right; lra].
  split; [reflexivity|]. intro L. cbv zeta in H.
  assert (E : (0 <? snd tp * (1 - f / 150)) = (f <? 150)).
  { assert (X : f / 150 == f * (1 # 150)) by field. destruct (Qltb_spec f 150), (Qltb_spec 0 (snd tp * (1 - f / 150))); trivial; exfalso; rewrite X in *; nra. }
  rewrite E in H. destruct (Qltb_spec f 150) as [F|F].
  - destruct (rescale i (Some (0, 1)) (0, snd tp * (1 - f / 150)) true) as [r|e] eqn:R; [|discriminate]. cbn [bind] in H. apply Ok_inj in H. subst o.
    apply rescale_ok in R as (_ & _ & ->). assert (Lr : length (map (rescale_pt 0 1 0 (snd tp * (1 - f / 150)) true) i) = length g) by (rewrite map_length; exact L).
    split; [rewrite zipw_length by exact Lr; exact Lr|]. intros k Hk. rewrite (zipw_nth _ _ _ k 0 0 0) by lia. rewrite nth_map_lt with (d := 0) by lia.
    unfold ice_effect. rewrite ice_value; [reflexivity|]. apply Qltb_lt. exact E.
  - apply Ok_inj in H. subst o. split; [reflexivity|]. intros. reflexivity.
Qed.

Lemma at_threshold_in {A} t (c : list (Q * A)) a : at_threshold t c = Ok a -> exists p, In (p, a) c /\ math_isclose p t = true.
Proof.
  unfold at_threshold. destruct (find _ c) as [[p x]|] eqn:F; [|discriminate]. intro H. apply Ok_inj in H. cbn in H. subst x. apply find_some in F. destruct F as [F1 F2]. exists p. split; trivial.
Qed.
Lemma at_time_in {A} t (c : list (Z * A)) a : at_time t c = Ok a -> In (t, a) c.
Proof.
  unfold at_time. destruct (find _ c) as [[p x]|] eqn:F; [|discriminate]. intro H. apply Ok_inj in H. cbn in H. subst x. apply find_some in F. destruct F as [F1 F2]. apply Z.eqb_eq in F2. cbn in F2. subst p. exact F1.
Qed.
Lemma nearest_spec {A} t (c : list (Z * A)) : forall best, In (nearest t best c) (best :: c) /\ forall p, In p (best :: c) -> (Z.abs (fst (nearest t best c) - t) <= Z.abs (fst p - t))%Z.
Proof.
  induction c as [|q c IH]; intro best; cbn [nearest].
  - split; [left; reflexivity|]. intros p [<-|[]]. lia.
  - destruct (IH (if (Z.abs (fst q - t) <? Z.abs (fst best - t))%Z then q else best)) as [I L]. split.
    + destruct I as [I|I]; [|right; right; exact I]. destruct (Z.ltb_spec (Z.abs (fst q - t)) (Z.abs (fst best - t))); rewrite <- I; [right; left|left]; reflexivity.
    + intros p Hp. assert (L0 := L _ (or_introl eq_refl)). destruct Hp as [<-|[<-|Hp]].
      * destruct (Z.ltb_spec (Z.abs (fst q - t)) (Z.abs (fst best - t))); lia.
      * destruct (Z.ltb_spec (Z.abs (fst q - t)) (Z.abs (fst best - t))); lia.
      * apply L. right. exact Hp.
Qed.
Lemma extract_nearest_in {A} t allowed (c : list (Z * A)) a : extract_nearest_time_point t allowed c = Ok a ->
  exists t', In (t', a) c /\ (Z.abs (t' - t) <= allowed)%Z /\ forall p, In p c -> (Z.abs (t' - t) <= Z.abs (fst p - t))%Z.
Proof.
  destruct c as [|q c]; [discriminate|]. unfold extract_nearest_time_point. cbv zeta. destruct (nearest_spec t c q) as [I L]. destruct (nearest t q c) as [t' x].
  cbn [fst snd] in *. destruct (Z.ltb_spec allowed (Z.abs (t - t'))); [discriminate|]. intro H'. apply Ok_inj in H'. subst x. exists t'. split; [exact I|]. split; [lia|exact L].
Qed.

Lemma Qmin_mor a a' b b' : a == a' -> b == b' -> Qmin a b == Qmin a' b'.
Proof. intros E F. qmm; lra. Qed.
Lemma apply_ice_ok frt t ice g o n : apply_ice frt t ice g = Ok o -> length g = n -> (forall p, In p ice -> length (snd p) = n) ->
  length o = n /\ exists i1 i2 i3, at_threshold (1 # 2) ice = Ok i1 /\ at_threshold 1 ice = Ok i2 /\ at_threshold 2 ice = Ok i3 /\
  forall k, (k < n)%nat -> nth k o 0 == with_ice (inject_Z (t - frt) / 60) (Some (nth k i1 0, nth k i2 0, nth k i3 0)) (nth k g 0).
Proof.
  unfold apply_ice. intros H Lg Li. set (f := inject_Z (t - frt) / 60) in *. cbn [foldM] in H.
  destruct (ice_step f ice g (1 # 2, 1 # 10)) as [g1|e] eqn:E1; [|discriminate]. cbn [bind] in H. destruct (ice_step f ice g1 (1, 1 # 2)) as [g2|e] eqn:E2; [|discriminate]. cbn [bind] in H.
  destruct (ice_step f ice g2 (2, 9 # 10)) as [g3|e] eqn:E3; [|discriminate]. cbn [bind] in H. apply Ok_inj in H. subst g3.
  destruct (ice_step_ok _ _ _ _ _ E1) as [i1 [[A1 B1]|N]]; [|exfalso; apply N; reflexivity]. destruct (ice_step_ok _ _ _ _ _ E2) as [i2 [[A2 B2]|N]]; [|exfalso; apply N; reflexivity].
  destruct (ice_step_ok _ _ _ _ _ E3) as [i3 [[A3 B3]|N]]; [|exfalso; apply N; reflexivity]. cbn [fst snd] in *.
  assert (L1 : length i1 = n) by (destruct (at_threshold_in _ _ _ A1) as [p [P _]]; exact (Li _ P)).
  assert (L2 : length i2 = n) by (destruct (at_threshold_in _ _ _ A2) as [p [P _]]; exact (Li _ P)).
  assert (L3 : length i3 = n) by (destruct (at_threshold_in _ _ _ A3) as [p [P _]]; exact (Li _ P)).
  destruct B1 as [M1 V1]; [lia|]. destruct B2 as [M2 V2]; [lia|]. destruct B3 as [M3 V3]; [lia|].
  split; [lia|]. exists i1, i2, i3. repeat (split; [trivial|]). intros k Hk. cbn [with_ice]. rewrite V3 by lia. destruct (f <? 150).
  - rewrite V2 by lia. rewrite V1 by lia. reflexivity.
  - rewrite V2 by lia. rewrite V1 by lia. reflexivity.
Qed.

(** One slice before the ice: first guess and precipitation. *)
Definition slice_of (thr : Q) (t : Z) (precip : list (Q * list (Z * field))) (d : field) : Prop := exists a c, In (a, c) precip /\ math_isclose a thr = true /\ In (t, d) c.
Lemma wet_ok frt t guess rate precip g o n : first_guess_slice frt t guess rate = Ok g -> apply_precip t precip g = Ok o ->
  (forall p, In p guess -> length (snd p) = n) -> (forall p, In p rate -> length (snd p) = n) -> (forall p q, In p precip -> In q (snd p) -> length (snd q) = n) ->
  length o = n /\ exists g0 r any high torr,
    (exists t', In (t', g0) guess /\ (Z.abs (t' - t) <= 7201)%Z /\ forall p, In p guess -> (Z.abs (t' - t) <= Z.abs (fst p - t))%Z) /\ In (t, r) rate /\
    slice_of (1 # 2) t precip any /\ slice_of 7 t precip high /\ slice_of 35 t precip torr /\
    forall k, (k < n)%nat -> nth k o 0 == Qmin (raised (inject_Z (t - frt) / 60) (nth k g0 0) (nth k r 0) (nth k high 0) (nth k torr 0)) (precip_limit (nth k any 0)).
Proof.
  intros H K Lg Lr Lp. unfold first_guess_slice in H. destruct (at_time t rate) as [r|e] eqn:Er; [|discriminate]. cbn [bind] in H.
  destruct (extract_nearest_time_point t 7201 guess) as [g0|e] eqn:Eg; [|discriminate]. cbn [bind] in H. cbv zeta in H. apply Ok_inj in H. subst g.
  apply at_time_in in Er. apply extract_nearest_in in Eg. unfold apply_precip in K. cbv zeta in K.
  assert (S : forall thr d, (let* c := at_threshold thr precip in at_time t c) = Ok d -> slice_of thr t precip d /\ length d = n).
  { intros thr d Hd. destruct (at_threshold thr precip) as [c|e] eqn:E; [|discriminate]. cbn [bind] in Hd. apply at_threshold_in in E. destruct E as [a [A B]]. apply at_time_in in Hd.
    split; [exists a, c; auto|]. exact (Lp _ _ A Hd). }
  destruct (let* c := at_threshold (1 # 2) precip in at_time t c) as [any|e] eqn:E1; [|discriminate]. destruct (let* c := at_threshold 7 precip in at_time t c) as [high|e] eqn:E2; [|discriminate].
  destruct (let* c := at_threshold 35 precip in at_time t c) as [torr|e] eqn:E3; [|discriminate]. cbn [bind] in K.
  destruct (S _ _ E1) as [S1 L1]. destruct (S _ _ E2) as [S2 L2]. destruct (S _ _ E3) as [S3 L3]. clear E1 E2 E3 S.
  assert (Lr' : length r = n) by exact (Lr _ Er). assert (Lg' : length g0 = n) by (destruct Eg as [t' [I _]]; exact (Lg _ I)).
  set (f := inject_Z (t - frt) / 60) in *.
  set (x1 := raise_to pl2 0 r g0) in *. assert (X1 : length x1 = n) by (unfold x1; rewrite raise_length; lia).
  set (x2 := raise_to pl1 (lrt_lev1 f) r x1) in *. assert (X2 : length x2 = n) by (unfold x2; rewrite raise_length; lia).
  set (x3 := raise_to pl2 (2 # 5) high x2) in *. assert (X3 : length x3 = n) by (unfold x3; rewrite raise_length; lia).
  set (x4 := raise_to pl1 (1 # 5) torr x3) in *. assert (X4 : length x4 = n) by (unfold x4; rewrite raise_length; lia).
  split.
  { unfold apply_double_scaling in K. destruct (rescale any (Some (0, 1 # 20)) (67 # 10000, 1 # 4) true) as [a1|] eqn:A1; [|discriminate].
    destruct (rescale any (Some (1 # 20, 1 # 10)) (1 # 4, 1) true) as [a2|] eqn:A2; [|discriminate]. cbn [bind] in K. apply Ok_inj in K. subst o.
    apply rescale_ok in A1 as (_ & _ & ->). apply rescale_ok in A2 as (_ & _ & ->). rewrite zipw_length; [exact X4|]. rewrite zipw_length; [lia|]. rewrite combine_length, !map_length. lia. }
  exists g0, r, any, high, torr. repeat (split; [trivial|]). intros k Hk.
  rewrite (double_scaling_pt _ _ _ _ _ _ _ _ _ _ k K) by lia. rewrite limit_value. apply Qmin_mor; [|reflexivity].
  unfold x4. rewrite raise_nth by lia. unfold x3. rewrite raise_nth by lia. unfold x2. rewrite raise_nth by lia. unfold x1. rewrite raise_nth by lia.
  apply (raise_raise f (nth k g0 0) (nth k r 0) (nth k high 0) (nth k torr 0)).
Qed.

(** The slices of a successful run. *)
Lemma lightning_slices radius xs ys frt guess rate precip ice out : lightning_process radius xs ys frt guess rate precip ice = Ok out ->
  exists template, at_threshold (1 # 2) precip = Ok template /\ map fst out = map fst template /\
  forall k t l, nth_error out k = Some (t, l) -> exists g wet, first_guess_slice frt t guess rate = Ok g /\ apply_precip t precip g = Ok wet /\
    match ice with None => l = wet | Some i => apply_ice frt t i wet = Ok l end.
Proof.
  unfold lightning_process. intro H. destruct (lightning_nbhood radius) as [b|e]; [|discriminate]. cbn [bind] in H. destruct (at_threshold (1 # 2) precip) as [tm|e]; [|discriminate]. cbn [bind] in H.
  exists tm. split; [reflexivity|]. destruct (mapM _ tm) as [first|e] eqn:E1; [|discriminate]. cbn [bind] in H. destruct (mapM _ first) as [wet|e] eqn:E2; [|discriminate]. cbn [bind] in H.
  apply mapM_inv' in E1. apply mapM_inv' in E2.
  assert (F1 : Forall2 (fun (p q : Z * field) => fst q = fst p /\ first_guess_slice frt (fst q) guess rate = Ok (snd q)) tm first).
  { clear -E1. induction E1 as [|p q l m H F IH]; constructor; [|exact IH]. destruct (first_guess_slice frt (fst p) guess rate) as [g|e] eqn:E; [|discriminate]. cbn [bind] in H. apply Ok_inj in H. subst q. split; [reflexivity|exact E]. }
  assert (F2 : Forall2 (fun (p q : Z * field) => fst q = fst p /\ apply_precip (fst q) precip (snd p) = Ok (snd q)) first wet).
  { clear -E2. induction E2 as [|p q l m H F IH]; constructor; [|exact IH]. destruct (apply_precip (fst p) precip (snd p)) as [g|e] eqn:E; [|discriminate]. cbn [bind] in H. apply Ok_inj in H. subst q. split; [reflexivity|exact E]. }
  assert (M : forall A B (l : list (Z * A)) (m : list (Z * B)) (P : Z * A -> Z * B -> Prop), Forall2 (fun p q => fst q = fst p /\ P p q) l m -> map fst m = map fst l).
  { intros A B l m P F. induction F as [|p q l m [E _] F IH]; [reflexivity|]. cbn. rewrite E, IH. reflexivity. }
  assert (W : forall k t l, nth_error wet k = Some (t, l) -> exists g, first_guess_slice frt t guess rate = Ok g /\ apply_precip t precip g = Ok l).
  { intros k t l Hk. assert (Lk : (k < length first)%nat).
    { rewrite (Forall2_len _ _ _ F2). apply nth_error_Some. rewrite Hk. discriminate. }
    destruct (nth_error first k) as [[t1 g1]|] eqn:N1; [|apply nth_error_None in N1; lia]. destruct (forall2_nth _ _ _ _ _ _ F2 N1 Hk) as [T1 P1]. cbn [fst snd] in T1, P1. subst t1.
    destruct (nth_error tm k) as [p|] eqn:N0; [|apply nth_error_None in N0; rewrite (Forall2_len _ _ _ F1) in N0; lia]. destruct (forall2_nth _ _ _ _ _ _ F1 N0 N1) as [_ P0]. cbn [fst snd] in P0. exists g1. split; trivial. }
  destruct ice as [i|].
  - destruct (mapM _ wet) as [o|e] eqn:E3; [|discriminate]. cbn [bind] in H. destruct (nbhood_cells b xs ys _) as [c|e]; [|discriminate]. cbn [bind] in H. apply Ok_inj in H. subst o. apply mapM_inv' in E3.
    assert (F3 : Forall2 (fun (p q : Z * field) => fst q = fst p /\ apply_ice frt (fst q) i (snd p) = Ok (snd q)) wet out).
    { clear -E3. induction E3 as [|p q l m H F IH]; constructor; [|exact IH]. destruct (apply_ice frt (fst p) i (snd p)) as [g|e] eqn:E; [|discriminate]. cbn [bind] in H. apply Ok_inj in H. subst q. split; [reflexivity|exact E]. }
    split; [rewrite (M _ _ _ _ _ F3), (M _ _ _ _ _ F2), (M _ _ _ _ _ F1); reflexivity|]. intros k t l Hk.
    destruct (nth_error wet k) as [[t1 w1]|] eqn:N; [|apply nth_error_None in N; rewrite (Forall2_len _ _ _ F3) in N; assert ((k < length out)%nat) by (apply nth_error_Some; rewrite Hk; discriminate); lia].
    destruct (forall2_nth _ _ _ _ _ _ F3 N Hk) as [T1 P1]. cbn [fst snd] in T1, P1. subst t1. destruct (W k t w1 N) as [g [G1 G2]]. exists g, w1. auto.
  - cbn [bind] in H. destruct (nbhood_cells b xs ys _) as [c|e]; [|discriminate]. cbn [bind] in H. apply Ok_inj in H. subst out.
    split; [rewrite (M _ _ _ _ _ F2), (M _ _ _ _ _ F1); reflexivity|]. intros k t l Hk. destruct (W k t l Hk) as [g [G1 G2]]. exists g, l. auto.
Qed.
