(** C102: the roughness and height correction of winds. *)
From Coq Require Import Reals List Bool.
From Verif Require Import Base Model_Downscale.
From Coq Require Import Lra.
Import ListNotations.
Local Open Scope R_scope.

Lemma above_spec x y : reflect (y < x) (above x y).
Proof. unfold above. destruct (Rlt_dec y x); constructor; assumption. Qed.
Lemma above_true x y : above x y = true <-> y < x.
Proof. destruct (above_spec x y); split; try easy. Qed.
Lemma above_false x y : above x y = false <-> x <= y.
Proof. destruct (above_spec x y); split; try easy; lra. Qed.
Lemma nth_combine {A B} (a : list A) (b : list B) i x y : length a = length b -> nth i (combine a b) (x, y) = (nth i a x, nth i b y).
Proof. intro L. apply combine_nth. exact L. Qed.

(** ** Columns: heights increase, the lowest is above the ground. *)
Definition rising (l : column) : Prop := StronglySorted (fun a b => fst a < fst b) l /\ Forall (fun e => 0 < fst e) l.
Definition calm (l : column) : Prop := Forall (fun e => 0 <= snd e) l.
Lemma last_cons (l : column) : forall e d, last (e :: l) d = last l e.
Proof. induction l as [|q l IH]; intros e d; [reflexivity|]. change (last (e :: q :: l) d) with (last (q :: l) d). now rewrite !IH. Qed.
Lemma closest_last l : forall best x, StronglySorted (fun a b : R * R => fst a < fst b) (best :: l) -> fst best <= x -> Forall (fun e => fst e <= x) l -> closest best l x = last l best.
Proof.
  induction l as [|e l IH]; intros best x So B F; [reflexivity|]. cbn [closest]. inversion F as [|? ? Fe Fl]; subst. rewrite (proj2 (above_false (fst e) x) Fe). inversion So as [|? ? So' Fa]; subst. inversion Fa as [|? ? Lt _]; subst. rewrite (proj2 (above_true (x - fst best) (x - fst e))) by lra. rewrite (IH e x So' Fe Fl). now rewrite last_cons.
Qed.
Lemma closest_skip l : forall best x, Forall (fun e => x < fst e) l -> closest best l x = best.
Proof. induction l as [|e l IH]; intros best x F; [reflexivity|]. inversion F as [|? ? Fe Fl]; subst. cbn [closest]. rewrite (proj2 (above_true (fst e) x) Fe). now apply IH. Qed.
Lemma closest_app a : forall best b x, closest best (a ++ b) x = closest (closest best a x) b x.
Proof. induction a as [|e a IH]; intros best b x; [reflexivity|]. cbn [closest app]. destruct (above (fst e) x); [apply IH|]. destruct (above (x - fst best) (x - fst e)); apply IH. Qed.
Lemma below_some a e b x : StronglySorted (fun p q : R * R => fst p < fst q) (a ++ e :: b) -> fst e <= x -> Forall (fun q => x < fst q) b -> nearest_below x (a ++ e :: b) = Some e.
Proof.
  intros So Le Fb. assert (Fa : Forall (fun q => fst q < fst e) a). { clear -So. induction a as [|q a IH]; [constructor|]. cbn in So. inversion So as [|? ? So' F]; subst. constructor; [|now apply IH]. rewrite Forall_forall in F. apply F. apply in_or_app. right. now left. }
  destruct a as [|q a]; cbn [app nearest_below].
  - rewrite (proj2 (above_false (fst e) x) Le). f_equal. now apply closest_skip.
  - inversion Fa as [|? ? Fq Fa']; subst. rewrite (proj2 (above_false (fst q) x)) by lra. f_equal. change (a ++ e :: b) with (a ++ [e] ++ b). rewrite app_assoc, closest_app. rewrite (closest_last (a ++ [e])).
    + rewrite last_last. now apply closest_skip.
    + cbn in So. clear -So. change (q :: a ++ e :: b) with ((q :: a) ++ e :: b) in So. change (q :: a ++ [e]) with ((q :: a) ++ [e]). revert So. generalize (q :: a). induction l as [|y l IH]; intro So; [repeat constructor|]. cbn in *. inversion So as [|? ? So' F]; subst. constructor; [now apply IH|]. rewrite Forall_forall in *. intros z Z0. apply F. apply in_app_or in Z0 as [Z0|[<-|[]]]; apply in_or_app; [now left|right; now left].
    + lra.
    + apply Forall_app. split; [|constructor; [exact Le|constructor]]. rewrite Forall_forall in *. intros z Z0. specialize (Fa' z Z0). lra.
Qed.
Lemma below_none l x : Forall (fun q => x < fst q) l -> nearest_below x l = None.
Proof. induction l as [|e l IH]; intro F; [reflexivity|]. inversion F as [|? ? Fe Fl]; subst. cbn. rewrite (proj2 (above_true (fst e) x) Fe). now apply IH. Qed.
Lemma above_first a e b x : Forall (fun q => fst q <= x) a -> x < fst e -> first_above x (a ++ e :: b) = e.
Proof. unfold first_above. intros F L. replace (find (fun e0 => above (fst e0) x) (a ++ e :: b)) with (Some e); [reflexivity|]. induction F as [|q a Fq F IH]; cbn; [now rewrite (proj2 (above_true (fst e) x) L)|]. now rewrite (proj2 (above_false (fst q) x) Fq). Qed.
Lemma above_none l x : Forall (fun q => fst q <= x) l -> first_above x l = hd (0, 0) l.
Proof. unfold first_above. intro F. replace (find (fun e0 => above (fst e0) x) l) with (@None (R * R)); [reflexivity|]. induction F as [|q a Fq F IH]; [reflexivity|]. cbn. now rewrite (proj2 (above_false (fst q) x) Fq). Qed.
Lemma rising_before a e b : rising (a ++ e :: b) -> Forall (fun q => fst q < fst e) a /\ Forall (fun q => fst e < fst q) b /\ 0 < fst e.
Proof.
  intros [So P]. split; [|split].
  - clear P. induction a as [|q a IH]; [constructor|]. cbn in So. inversion So as [|? ? So' F]; subst. constructor; [|now apply IH]. rewrite Forall_forall in F. apply F. apply in_or_app. right. now left.
  - clear P. induction a as [|q a IH]; cbn in So; inversion So as [|? ? So' F]; subst; [exact F|now apply IH].
  - apply Forall_app in P as [_ P]. now inversion P.
Qed.
(** The wind at a height: linear between two levels, proportional to the height below the lowest. *)
Theorem C102_interpolated_between a h1 u1 h2 u2 b x : rising (a ++ (h1, u1) :: (h2, u2) :: b) -> h1 <= x <= h2 -> u_at_h x (a ++ (h1, u1) :: (h2, u2) :: b) = u1 + (x - h1) / (h2 - h1) * (u2 - u1).
Proof.
  intros R [L U]. destruct (rising_before _ _ _ R) as (Fa & Fb & P1). cbn [fst] in *. inversion Fb as [|? ? L12 Fb1]; subst. cbn [fst] in L12.
  assert (R2 : rising ((a ++ [(h1, u1)]) ++ (h2, u2) :: b)) by now rewrite <- app_assoc. destruct (rising_before _ _ _ R2) as (Fa2 & Fb2 & P2). cbn [fst] in *.
  destruct (Rle_lt_or_eq_dec _ _ U) as [U'|U'].
  - assert (E1 : first_above x (a ++ (h1, u1) :: (h2, u2) :: b) = (h2, u2)).
    { replace (a ++ (h1, u1) :: (h2, u2) :: b) with ((a ++ [(h1, u1)]) ++ (h2, u2) :: b) by (now rewrite <- app_assoc). apply above_first; [apply Forall_app; split; [rewrite Forall_forall in *; intros q Q; specialize (Fa q Q); lra|constructor; [exact L|constructor]]|exact U']. }
    unfold u_at_h. rewrite E1.
    rewrite (below_some a (h1, u1) ((h2, u2) :: b)); [|exact (proj1 R)|exact L|constructor; [exact U'|rewrite Forall_forall in *; intros q Q; specialize (Fb2 q Q); lra]]. cbn [fst snd]. destruct (Req_EM_T (h2 - h1) 0); [lra|reflexivity].
  - subst x. replace (u1 + (h2 - h1) / (h2 - h1) * (u2 - u1)) with u2 by (field; lra). unfold u_at_h.
    replace (nearest_below h2 (a ++ (h1, u1) :: (h2, u2) :: b)) with (Some (h2, u2)). 2: { symmetry. replace (a ++ (h1, u1) :: (h2, u2) :: b) with ((a ++ [(h1, u1)]) ++ (h2, u2) :: b) by (now rewrite <- app_assoc). apply below_some; [exact (proj1 R2)|cbn; lra|exact Fb2]. }
    cbn [fst snd]. destruct (Req_EM_T _ 0) as [E|E]; [|unfold Rdiv; ring]. exfalso. destruct b as [|[h3 u3] b].
    + rewrite above_none in E. 2: { apply Forall_app. split; [rewrite Forall_forall in *; intros q Q; specialize (Fa q Q); lra|]. constructor; [cbn; lra|]. constructor; [cbn; lra|constructor]. }
      destruct a as [|q a]; cbn in E; [lra|]. inversion Fa; subst. lra.
    + replace (a ++ (h1, u1) :: (h2, u2) :: (h3, u3) :: b) with ((a ++ [(h1, u1); (h2, u2)]) ++ (h3, u3) :: b) in E by (now rewrite <- app_assoc). rewrite above_first in E; [|apply Forall_app; split; [rewrite Forall_forall in *; intros q Q; specialize (Fa q Q); lra|constructor; [cbn; lra|constructor; [cbn; lra|constructor]]]|]; inversion Fb2; cbn in *; lra.
Qed.
Theorem C102_interpolated_below h u b x : rising ((h, u) :: b) -> x < h -> u_at_h x ((h, u) :: b) = x / h * u.
Proof.
  intros R L. destruct (rising_before [] (h, u) b R) as (_ & Fb & P). cbn [fst] in *. unfold u_at_h. pose proof (above_first [] (h, u) b x (Forall_nil _) L) as E1. cbn [app] in E1. rewrite E1. rewrite below_none by (constructor; [exact L|rewrite Forall_forall in *; intros q Q; specialize (Fb q Q); lra]). cbn [hd fst snd]. destruct (Req_EM_T (h - h) 0); [reflexivity|lra].
Qed.
(** Above the highest level: the line through the lowest and the highest one. *)
Theorem C102_interpolated_above h0 u0 a h1 u1 x : rising ((h0, u0) :: a ++ [(h1, u1)]) -> h1 <= x -> u_at_h x ((h0, u0) :: a ++ [(h1, u1)]) = u1 + (x - h1) * ((u1 - u0) / (h1 - h0)).
Proof.
  intros R L. change ((h0, u0) :: a ++ [(h1, u1)]) with (((h0, u0) :: a) ++ [(h1, u1)]) in *. destruct (rising_before _ _ _ R) as (Fa & _ & P). cbn [fst] in *. unfold u_at_h. rewrite above_none by (apply Forall_app; split; [rewrite Forall_forall in *; intros q Q; specialize (Fa q Q); lra|constructor; [exact L|constructor]]).
  rewrite (below_some ((h0, u0) :: a) (h1, u1) []); [|exact (proj1 R)|exact L|constructor]. cbn [hd app fst snd]. inversion Fa as [|? ? F0 _]; subst. cbn [fst] in F0. destruct (Req_EM_T (h0 - h1) 0); [lra|]. field. split; lra.
Qed.
Theorem C102_interpolated_single h u x : 0 < h -> u_at_h x [(h, u)] = x / h * u.
Proof.
  intro P. unfold u_at_h. assert (E : first_above x [(h, u)] = (h, u)) by (unfold first_above; cbn; destruct (above h x); reflexivity). rewrite E. assert (E2 : match nearest_below x [(h, u)] with Some e => e | None => hd (0, 0) [(h, u)] end = (h, u)) by (cbn; destruct (above h x); reflexivity). rewrite E2. cbn [fst snd]. destruct (Req_EM_T (h - h) 0); [reflexivity|lra].
Qed.
(** Where a height lies in a column. *)
Lemma height_cases l x : rising l -> l <> [] -> (exists h u b, l = (h, u) :: b /\ x < h) \/ (exists a h1 u1 h2 u2 b, l = a ++ (h1, u1) :: (h2, u2) :: b /\ h1 <= x <= h2) \/ (exists a h u, l = a ++ [(h, u)] /\ h <= x).
Proof.
  intros R N. destruct l as [|[h u] l]; [congruence|]. clear N. destruct (Rlt_le_dec x h) as [L|L]; [left; eauto 6|right].
  revert h u R L. induction l as [|[h2 u2] l IH]; intros h u R L; [right; exists [], h, u; auto|]. destruct (Rlt_le_dec x h2) as [L2|L2]; [left; exists [], h, u, h2, u2, l; split; [reflexivity|lra]|].
  assert (R' : rising ((h2, u2) :: l)) by (destruct R as [S1 P1]; inversion S1; inversion P1; subst; split; assumption). destruct (IH h2 u2 R' L2) as [(a & h1 & u1 & h3 & u3 & b & E & B)|(a & h3 & u3 & E & B)].
  - left. exists ((h, u) :: a), h1, u1, h3, u3, b. rewrite E. auto.
  - right. exists ((h, u) :: a), h3, u3. rewrite E. auto.
Qed.
Lemma mix u1 u2 t m : 0 <= t <= 1 -> 0 <= u1 <= m -> 0 <= u2 <= m -> 0 <= u1 + t * (u2 - u1) <= m.
Proof. intros. split; nra. Qed.
Lemma ratio x a b : a < b -> a <= x <= b -> 0 <= (x - a) / (b - a) <= 1.
Proof. intros L B. split; [apply Rmult_le_pos; [lra|]; left; apply Rinv_0_lt_compat; lra|]. apply (Rmult_le_reg_r (b - a)); [lra|]. unfold Rdiv. rewrite Rmult_assoc, Rinv_l by lra. lra. Qed.
(** Within the column (from the ground to the highest level) the wind is between none and the strongest. *)
Theorem C102_interpolated_bounded l x m : rising l -> l <> [] -> Forall (fun e => 0 <= snd e <= m) l -> 0 <= x -> (exists e, In e l /\ x <= fst e) -> 0 <= u_at_h x l <= m.
Proof.
  intros R N F X (e & Ie & Le). destruct (height_cases l x R N) as [(h & u & b & -> & L)|[(a & h1 & u1 & h2 & u2 & b & -> & L)|(a & h & u & -> & L)]].
  - rewrite C102_interpolated_below by assumption. inversion F as [|? ? B _]; subst. cbn [snd] in B. assert (T : 0 <= x / h <= 1). { pose proof (ratio x 0 h ltac:(lra) ltac:(lra)) as Q. replace ((x - 0) / (h - 0)) with (x / h) in Q by (unfold Rdiv; rewrite !Rminus_0_r; reflexivity). exact Q. } split; nra.
  - rewrite C102_interpolated_between by assumption. apply Forall_app in F as [_ F]. inversion F as [|? ? B1 F2]; subst. inversion F2 as [|? ? B2 _]; subst. cbn [snd] in *. destruct (rising_before _ _ _ R) as (_ & Fb & _). inversion Fb; subst. cbn [fst] in *. apply mix; [apply ratio; lra|assumption|assumption].
  - assert (Ex : x = h). { destruct (rising_before _ _ _ R) as (Fa & _ & _). apply in_app_or in Ie as [Ie|[<-|[]]]; [rewrite Forall_forall in Fa; specialize (Fa e Ie)|]; cbn [fst] in *; lra. } subst x.
    apply Forall_app in F as [_ F]. inversion F as [|? ? B _]; subst. cbn [snd] in B. destruct a as [|[h0 u0] a].
    + cbn [app]. destruct R as [_ P]. inversion P; subst. rewrite C102_interpolated_single by assumption. unfold Rdiv. rewrite Rinv_r by (cbn [fst] in *; lra). lra.
    + cbn [app] in *. rewrite C102_interpolated_above by (assumption || lra). replace (h - h) with 0 by ring. lra.
Qed.

(** ** The orography below the grid: wavenumber and reference height. *)
Definition gridded (r : resolution) : Prop := 0 < ppres r /\ 0 < modres r.
(** Land with relief: both ancillaries positive. *)
Definition hilly (p : point) (s a : R) : Prop := p_sigma p = Some s /\ 0 < s /\ p_aos p = Some a /\ 0 < a.
(** Either ancillary is not positive or not known. *)
Definition smooth (p : point) : Prop := (forall s, p_sigma p = Some s -> s <= 0) \/ (forall a, p_aos p = Some a -> a <= 0).
Lemma sqrt2 : 0 < sqrt 2.
Proof. apply sqrt_lt_R0. lra. Qed.
Lemma hilly_h p s a : hilly p s a -> h_over_2 p = s * sqrt 2 /\ 0 < s * sqrt 2 /\ hcmask p = true.
Proof.
  intros (Es & Ps & Ea & Pa). pose proof sqrt2. assert (P : 0 < s * sqrt 2) by now apply Rmult_lt_0_compat. assert (E : h_over_2 p = s * sqrt 2) by (unfold h_over_2; rewrite Es, (proj2 (above_true s 0) Ps); reflexivity).
  split; [exact E|split; [exact P|]]. unfold hcmask. rewrite E, (proj2 (above_true _ 0) P). unfold positive. rewrite Ea. now apply above_true.
Qed.
Lemma smooth_h p : smooth p -> hcmask p = false.
Proof.
  intros [H|H]; unfold hcmask.
  - unfold h_over_2. destruct (p_sigma p) as [s|]; [rewrite (proj2 (above_false s 0) (H s eq_refl))|]; rewrite (proj2 (above_false RMDI 0)) by (unfold RMDI; lra); reflexivity.
  - replace (positive (p_aos p)) with false; [apply andb_false_r|]. unfold positive. destruct (p_aos p) as [a|]; [|reflexivity]. symmetry. apply above_false. now apply H.
Qed.
Lemma cells r : gridded r -> 0 < PI / dx_min r /\ 0 < PI / dx_max r.
Proof. intros [P M]. unfold dx_min, dx_max. split; apply Rdiv_lt_0_compat; try apply PI_RGT_0; lra. Qed.
(** The wavenumber is that of hills of the given slope and height, kept within what the two grids resolve. *)
Theorem C102_wavenumber r p s a : gridded r -> hilly p s a -> wavenumber r p = Rmax (PI / (3 * modres r)) (Rmin (PI / (ppres r / 2)) (a * PI / (s * sqrt 2))).
Proof.
  intros G H. destruct (hilly_h p s a H) as (E & P & M). destruct (cells r G) as [C1 C2]. unfold wavenumber. rewrite M, E. destruct H as (_ & _ & -> & Pa). destruct (Req_EM_T (s * sqrt 2) 0); [lra|]. change (PI / (3 * modres r)) with (PI / dx_max r). change (PI / (ppres r / 2)) with (PI / dx_min r).
  set (w := a * PI / (s * sqrt 2)). assert (Pw : 0 < w) by (apply Rdiv_lt_0_compat; [apply Rmult_lt_0_compat; [exact Pa|apply PI_RGT_0]|exact P]). clearbody w.
  destruct (above_spec w (PI / dx_min r)) as [A|A].
  - rewrite Rmin_left by lra. rewrite Rabs_right by lra. destruct (above_spec (PI / dx_max r) (PI / dx_min r)); [rewrite Rmax_left by lra|rewrite Rmax_right by lra]; reflexivity.
  - rewrite Rmin_right by lra. rewrite Rabs_right by lra. destruct (above_spec (PI / dx_max r) w); [rewrite Rmax_left by lra|rewrite Rmax_right by lra]; reflexivity.
Qed.
Theorem C102_wavenumber_positive r p s a : gridded r -> hilly p s a -> 0 < wavenumber r p /\ PI / (3 * modres r) <= wavenumber r p.
Proof. intros G H. rewrite (C102_wavenumber r p s a G H). destruct (cells r G) as [_ C]. unfold dx_max in C. pose proof (Rmax_l (PI / (3 * modres r)) (Rmin (PI / (ppres r / 2)) (a * PI / (s * sqrt 2)))). lra. Qed.
(** The reference height: at least a metre, at most twice the amplitude of the hills and the inverse of the wavenumber (where these exceed a metre). *)
Theorem C102_reference_height r p s a : gridded r -> hilly p s a -> 1 <= h_ref r p /\ h_ref r p <= Rmax 1 (2 * (s * sqrt 2)) /\ h_ref r p <= Rmax 1 (1 / wavenumber r p).
Proof.
  intros G H. destruct (C102_wavenumber_positive r p s a G H) as [K _]. destruct (hilly_h p s a H) as (E & P & M). unfold h_ref. rewrite M, E. cbv zeta. set (t0 := - ln tolerance + _). clearbody t0. set (t1 := if above t0 1 then 1 else t0). set (t := if above 0 t1 then 0 else t1).
  assert (T : 0 <= t <= 1). { subst t t1. destruct (above_spec t0 1); [destruct (above_spec 0 1); lra|]. destruct (above_spec 0 t0); lra. }
  clearbody t. clear t1 t0. set (k := wavenumber r p) in *. clearbody k. assert (B : t / k <= 1 / k). { unfold Rdiv. apply Rmult_le_compat_r; [left; now apply Rinv_0_lt_compat|lra]. }
  set (h0 := if above 1 (t / k) then 1 else t / k). assert (H0 : 1 <= h0 <= Rmax 1 (1 / k)). { subst h0. pose proof (Rmax_l 1 (1 / k)). pose proof (Rmax_r 1 (1 / k)). destruct (above_spec 1 (t / k)); lra. }
  clearbody h0. pose proof (Rmin_l h0 (2 * (s * sqrt 2))). pose proof (Rmin_r h0 (2 * (s * sqrt 2))). pose proof (Rmax_l 1 (2 * (s * sqrt 2))). pose proof (Rmax_r 1 (2 * (s * sqrt 2))). pose proof (Rmax_l 1 (1 / k)). destruct (above_spec 1 (Rmin h0 (2 * (s * sqrt 2)))); lra.
Qed.

(** ** The corrected winds. *)
Definition rough_at (r : resolution) (p : point) (l : column) (e : R * R) : R :=
  match p_z0 p with Some _ => if above (if rcmask p then h_ref r p else RMDI) (fst e) then (if rcmask p then friction r p l else RMDI) * ln (fst e / z0_of p) / von_karman else snd e | None => snd e end.
Definition high_at (r : resolution) (p : point) (l : column) (e : R * R) : R :=
  if hcmask' p && above (u_a r p l) 0 then (if above (wavenumber r p * fst e) (1 / 10000) then exp (- (wavenumber r p * fst e)) else 1) * u_a r p l * (delta_height p * wavenumber r p) else 0.
Lemma floor_max x : (if above 0 x then 0 else x) = Rmax 0 x.
Proof. destruct (above_spec 0 x); [rewrite Rmax_left by lra|rewrite Rmax_right by lra]; reflexivity. Qed.
Lemma combine_two {A B C} (f : A -> B) (g : A -> C) l : combine (map f l) (map g l) = map (fun a => (f a, g a)) l.
Proof. induction l as [|x l IH]; [reflexivity|]. cbn. now rewrite IH. Qed.
Lemma corrected_map r p l : corrected r p l = map (fun e => Rmax 0 (rough_at r p l e + high_at r p l e)) l.
Proof.
  unfold corrected, height_correction. replace (roughness r p l) with (map (rough_at r p l) l).
  - rewrite combine_two, map_map. apply map_ext. intro e. cbn [fst snd]. now rewrite floor_max.
  - unfold roughness, rough_at. destruct (p_z0 p); reflexivity.
Qed.
(** One wind for each level, none negative. *)
Theorem C102_size r p l : length (corrected r p l) = length l.
Proof. rewrite corrected_map. apply map_length. Qed.
Theorem C102_not_negative r p l : Forall (fun v => 0 <= v) (corrected r p l).
Proof. rewrite corrected_map. apply Forall_forall. intros v Iv. apply in_map_iff in Iv as (e & <- & _). apply Rmax_l. Qed.
Lemma calm_max l e : calm l -> In e l -> Rmax 0 (snd e) = snd e.
Proof. intros C Ie. unfold calm in C. rewrite Forall_forall in C. apply Rmax_right. now apply C. Qed.
(** Over the sea and where the ancillaries are not known the winds are as they were. *)
Theorem C102_smooth_unchanged r p l : smooth p -> rising l -> calm l -> corrected r p l = map snd l.
Proof.
  intros Sm [_ P] C. rewrite corrected_map. apply map_ext_in. intros e Ie. pose proof (smooth_h p Sm) as M. unfold rough_at, high_at, rcmask, hcmask'. rewrite M. cbn [andb]. rewrite Rplus_0_r. unfold rough_at. rewrite Forall_forall in P. specialize (P e Ie). destruct (p_z0 p); [|now apply (calm_max l)].
  rewrite (proj2 (above_false RMDI (fst e))) by (unfold RMDI; lra). now apply (calm_max l).
Qed.
(** The whole formula, where there are hills, roughness and both orographies. *)
Definition hills (r : resolution) (p : point) (l : column) (h difference : R) : R :=
  let k := wavenumber r p in let u := u_at_h (1 / k) l in if Rlt_dec 0 u then (if Rlt_dec (1 / 10000) (k * h) then exp (- (k * h)) else 1) * u * k * difference else 0.
Definition orography (p : point) : option R := match p_oro p, p_model p with Some a, Some b => if Req_EM_T a (-32767) then None else if Req_EM_T b (-32767) then None else Some (a - b) | _, _ => None end.
Lemma high_formula r p l e s a : hilly p s a -> high_at r p l e = match orography p with Some d => hills r p l (fst e) d | None => 0 end.
Proof.
  intro H. destruct (hilly_h p s a H) as (_ & _ & M). unfold high_at, hcmask', delta_height, orography, hcmask', known. rewrite M. change (-32767) with RMDI. destruct (p_oro p) as [x|]; [|reflexivity]. cbn [andb]. destruct (Req_EM_T x RMDI); [destruct (p_model p); reflexivity|]. destruct (p_model p) as [y|]; [|reflexivity]. cbn [andb]. destruct (Req_EM_T y RMDI); [reflexivity|]. cbn [andb].
  unfold hills, u_a, above. destruct (Rlt_dec 0 (u_at_h (1 / wavenumber r p) l)); [|reflexivity]. destruct (Rlt_dec (1 / 10000) (wavenumber r p * fst e)); ring.
Qed.
Theorem C102_formula r p l s a z : hilly p s a -> p_z0 p = Some (Some z) -> 0 < z ->
  corrected r p l = map (fun e => let H := h_ref r p in
    Rmax 0 ((if Rlt_dec (fst e) H then u_at_h H l * ln (fst e / z) / ln (H / z) else snd e) + match orography p with Some d => hills r p l (fst e) d | None => 0 end)) l.
Proof.
  intros H Ez Pz. rewrite corrected_map. apply map_ext. intro e. cbv zeta. rewrite (high_formula r p l e s a H). do 2 f_equal. destruct (hilly_h p s a H) as (_ & _ & M). unfold rough_at, friction, rcmask, z0_of, positive, sea. rewrite M, Ez, (proj2 (above_true z 0) Pz). cbn [andb]. unfold above. destruct (Rlt_dec (fst e) (h_ref r p)); [|reflexivity]. unfold von_karman, Rdiv. set (i := / ln (h_ref r p * / z)). field.
Qed.
Theorem C102_formula_unrough r p l s a : hilly p s a -> (p_z0 p = None \/ (exists z, p_z0 p = Some (Some z) /\ z <= 0) \/ p_z0 p = Some None) -> rising l ->
  corrected r p l = map (fun e => Rmax 0 (snd e + match orography p with Some d => hills r p l (fst e) d | None => 0 end)) l.
Proof.
  intros H Ez [_ P]. rewrite corrected_map. apply map_ext_in. intros e Ie. rewrite (high_formula r p l e s a H). do 2 f_equal. unfold rough_at, rcmask. rewrite Forall_forall in P. specialize (P e Ie). destruct Ez as [->|[(z & -> & Nz)| ->]]; [reflexivity| |]; unfold positive; [rewrite (proj2 (above_false z 0) Nz)|]; rewrite andb_false_r, (proj2 (above_false RMDI (fst e))) by (unfold RMDI; lra); reflexivity.
Qed.
Lemma nth_mapped (f : R * R -> R) l i d : (i < length l)%nat -> nth i (map f l) 0 = f (nth i l d).
Proof. intro Li. rewrite (nth_indep _ 0 (f d)) by now rewrite map_length. apply map_nth. Qed.
(** At and above the reference height flat ground (or an unknown orography) leaves the winds as they were. *)
Definition level_ground (p : point) : Prop := forall d, orography p = Some d -> d = 0.
Lemma hills_zero r p l h : hills r p l h 0 = 0.
Proof. unfold hills. destruct (Rlt_dec 0 _); [ring|reflexivity]. Qed.
Lemma level_hills r p l h : level_ground p -> match orography p with Some d => hills r p l h d | None => 0 end = 0.
Proof. intro F. unfold level_ground in F. destruct (orography p) as [d|]; [rewrite (F d eq_refl); apply hills_zero|reflexivity]. Qed.
Theorem C102_aloft_unchanged r p l s a z i d : hilly p s a -> p_z0 p = Some (Some z) -> 0 < z -> level_ground p -> calm l -> (i < length l)%nat -> h_ref r p <= fst (nth i l d) -> nth i (corrected r p l) 0 = snd (nth i l d).
Proof.
  intros H Ez Pz F C Li A. rewrite (C102_formula r p l s a z H Ez Pz). rewrite (nth_mapped _ l i d Li). cbv zeta. rewrite level_hills by exact F.
  destruct (Rlt_dec _ _); [lra|]. rewrite Rplus_0_r. apply (calm_max l); [exact C|now apply nth_In].
Qed.
(** Below it: the logarithmic profile that vanishes at the roughness length and meets the wind of the reference height. *)
Definition profile (U H z h : R) : R := Rmax 0 (U * ln (h / z) / ln (H / z)).
Theorem C102_logarithmic r p l s a z i d : hilly p s a -> p_z0 p = Some (Some z) -> 0 < z -> level_ground p -> (i < length l)%nat -> fst (nth i l d) < h_ref r p -> nth i (corrected r p l) 0 = profile (u_at_h (h_ref r p) l) (h_ref r p) z (fst (nth i l d)).
Proof.
  intros H Ez Pz F Li A. rewrite (C102_formula r p l s a z H Ez Pz). rewrite (nth_mapped _ l i d Li). cbv zeta. rewrite level_hills by exact F.
  destruct (Rlt_dec _ _); [|lra]. now rewrite Rplus_0_r.
Qed.
Lemma log_sign x z : 0 < z -> z < x -> 0 < ln (x / z).
Proof. intros Pz L. rewrite <- ln_1. apply ln_increasing; [lra|]. apply (Rmult_lt_reg_r z); [exact Pz|]. unfold Rdiv. rewrite Rmult_assoc, Rinv_l by lra. lra. Qed.
Lemma log_mono x y z : 0 < z -> 0 < x -> x <= y -> ln (x / z) <= ln (y / z).
Proof. intros Pz Px [L| ->]; [left|right; reflexivity]. pose proof (Rinv_0_lt_compat z Pz). apply ln_increasing; [now apply Rmult_lt_0_compat|]. apply Rmult_lt_compat_r; assumption. Qed.
(** With the reference height above the roughness length the profile rises with height, from calm at the roughness length to the wind of the reference height. *)
Theorem C102_profile_rises U H z h h' : 0 <= U -> 0 < z < H -> 0 < h -> h <= h' -> profile U H z h <= profile U H z h'.
Proof.
  intros PU [Pz L] Ph Le. unfold profile. apply Rle_max_compat_l. unfold Rdiv. pose proof (log_sign H z Pz L) as Q. apply Rmult_le_compat_r; [left; now apply Rinv_0_lt_compat|]. apply Rmult_le_compat_l; [exact PU|]. now apply log_mono.
Qed.
Theorem C102_profile_ends U H z h : 0 <= U -> 0 < z < H -> 0 < h -> (h <= z -> profile U H z h = 0) /\ profile U H z H = U /\ (h <= H -> profile U H z h <= U).
Proof.
  intros PU [Pz L] Ph. assert (E : profile U H z H = U) by (pose proof (log_sign H z Pz L); unfold profile; replace (U * ln (H / z) / ln (H / z)) with U by (field; lra); now apply Rmax_right). split; [|split].
  - intro Hz. assert (Q : profile U H z h <= profile U H z z) by (apply C102_profile_rises; lra). replace (profile U H z z) with 0 in Q. { pose proof (Rmax_l 0 (U * ln (h / z) / ln (H / z))). unfold profile in *. lra. } unfold profile. replace (z / z) with 1 by (field; lra). rewrite ln_1, Rmult_0_r. unfold Rdiv. rewrite Rmult_0_l. symmetry. apply Rmax_left. lra.
  - exact E.
  - intro Lh. rewrite <- E at 2. now apply C102_profile_rises.
Qed.
(** With a roughness length above the reference height it falls with height. *)
Theorem C102_profile_upside_down U H z h h' : 0 < U -> 0 < H < z -> 0 < h -> h < h' -> h' <= H -> profile U H z h' < profile U H z h.
Proof.
  intros PU [PH L] Ph Lt Le. assert (S1 : forall x, 0 < x < z -> ln (x / z) < 0). { intros x [Px Lx]. rewrite <- ln_1. apply ln_increasing; [apply Rdiv_lt_0_compat; lra|]. apply (Rmult_lt_reg_r z); [lra|]. unfold Rdiv. rewrite Rmult_assoc, Rinv_l by lra. lra. }
  pose proof (S1 H ltac:(lra)) as QH. pose proof (S1 h ltac:(lra)) as Qh. pose proof (S1 h' ltac:(lra)) as Qh'. assert (M : ln (h / z) < ln (h' / z)). { apply ln_increasing; [apply Rdiv_lt_0_compat; lra|]. apply Rmult_lt_compat_r; [apply Rinv_0_lt_compat; lra|exact Lt]. }
  unfold profile. change (U * ln (h' / z) / ln (H / z)) with (U * ln (h' / z) * / ln (H / z)). change (U * ln (h / z) / ln (H / z)) with (U * ln (h / z) * / ln (H / z)). pose proof (Rinv_lt_0_compat _ QH) as I1. set (q := / ln (H / z)) in *. clearbody q. set (x := ln (h / z)) in *. set (y := ln (h' / z)) in *. clearbody x y. assert (Y1 : y * q < x * q) by nra. assert (Y2 : 0 < y * q) by nra. assert (U * y * q < U * x * q) by (rewrite !Rmult_assoc; now apply Rmult_lt_compat_l). assert (0 < U * y * q) by (rewrite Rmult_assoc; now apply Rmult_lt_0_compat). rewrite !Rmax_right by lra. assumption.
Qed.
(** ** Height correction. *)
Definition with_orography (p : point) (o : option R) : point := {| p_aos := p_aos p; p_sigma := p_sigma p; p_z0 := p_z0 p; p_oro := o; p_model := p_model p |}.
Lemma hills_other r p o l h d : hills r (with_orography p o) l h d = hills r p l h d.
Proof. reflexivity. Qed.
Lemma rough_other r p o l e : rough_at r (with_orography p o) l e = rough_at r p l e.
Proof. reflexivity. Qed.
Lemma hills_mono r p l h d d' : 0 < wavenumber r p -> d <= d' -> hills r p l h d <= hills r p l h d'.
Proof.
  intros K L. unfold hills. cbv zeta. destruct (Rlt_dec 0 _) as [Pu|]; [|lra]. apply Rmult_le_compat_l; [|exact L]. apply Rmult_le_pos; [apply Rmult_le_pos; [|lra]|lra]. destruct (Rlt_dec _ _); [left; apply exp_pos|lra].
Qed.
(** The higher the grid's orography, the stronger the wind, at every level. *)
Theorem C102_higher_is_windier r p l s a o o' m i : gridded r -> hilly p s a -> p_model p = Some m -> m <> -32767 -> o <> -32767 -> o' <> -32767 -> o <= o' ->
  nth i (corrected r (with_orography p (Some o)) l) 0 <= nth i (corrected r (with_orography p (Some o')) l) 0.
Proof.
  intros G H Em Nm No No' L. destruct (C102_wavenumber_positive r p s a G H) as [K _]. rewrite !corrected_map. destruct (Nat.lt_ge_cases i (length l)) as [Li|Li]; [|rewrite !nth_overflow by (rewrite map_length; exact Li); lra].
  set (f := fun e => Rmax 0 (rough_at r (with_orography p (Some o)) l e + high_at r (with_orography p (Some o)) l e)). set (g := fun e => Rmax 0 (rough_at r (with_orography p (Some o')) l e + high_at r (with_orography p (Some o')) l e)).
  rewrite (nth_indep _ 0 (f (0, 0))) by now rewrite map_length. rewrite (nth_indep (map g l) 0 (g (0, 0))) by now rewrite map_length. rewrite !map_nth. subst f g. cbv beta. apply Rle_max_compat_l. rewrite !rough_other. apply Rplus_le_compat_l.
  rewrite !(high_formula r (with_orography p _) l _ s a) by exact H. unfold orography. cbn [p_oro p_model with_orography]. rewrite Em. destruct (Req_EM_T o (-32767)); [contradiction|]. destruct (Req_EM_T o' (-32767)); [contradiction|]. destruct (Req_EM_T m (-32767)); [contradiction|]. rewrite !hills_other. apply hills_mono; lra.
Qed.
Lemma max_close x y : Rabs (Rmax 0 x - Rmax 0 y) <= Rabs (x - y).
Proof. unfold Rmax, Rabs. destruct (Rle_dec 0 x), (Rle_dec 0 y); repeat destruct (Rcase_abs _); lra. Qed.
Lemma hills_size r p l h d : 0 < wavenumber r p -> 0 <= u_at_h (1 / wavenumber r p) l -> Rabs (hills r p l h d) <= u_at_h (1 / wavenumber r p) l * wavenumber r p * Rabs d * exp (1 / 10000 - wavenumber r p * h).
Proof.
  intros K Pu. unfold hills. cbv zeta. set (k := wavenumber r p) in *. set (u := u_at_h (1 / k) l) in *. clearbody u. clearbody k. pose proof (Rabs_pos d). destruct (Rlt_dec 0 u) as [P|]; [|rewrite Rabs_R0; apply Rmult_le_pos; [repeat apply Rmult_le_pos; lra|left; apply exp_pos]].
  assert (Q : 0 <= u * k * Rabs d) by (apply Rmult_le_pos; [apply Rmult_le_pos; lra|assumption]). assert (E : forall w, 0 <= w -> Rabs (w * u * k * d) = u * k * Rabs d * w). { intros w W. rewrite !Rabs_mult, (Rabs_right w), (Rabs_right u), (Rabs_right k) by lra. ring. }
  destruct (Rlt_dec _ _) as [A|A]; rewrite E.
  - apply Rmult_le_compat_l; [exact Q|]. left. apply exp_increasing. lra.
  - left. apply exp_pos.
  - apply Rmult_le_compat_l; [exact Q|]. set (c := 1 / 10000) in *. clearbody c. rewrite <- exp_0. destruct (Req_dec c (k * h)) as [->|N]; [right; f_equal; ring|]. left. apply exp_increasing. lra.
  - lra.
Qed.
(** How far the orography moves the wind: it decays exponentially with height. *)
Theorem C102_height_effect_bounded r p l s a o m i h u d : gridded r -> hilly p s a -> p_model p = Some m -> m <> -32767 -> o <> -32767 -> (i < length l)%nat -> nth i l d = (h, u) -> let U := u_at_h (1 / wavenumber r p) l in 0 <= U ->
  Rabs (nth i (corrected r (with_orography p (Some o)) l) 0 - nth i (corrected r (with_orography p None) l) 0) <= U * wavenumber r p * Rabs (o - m) * exp (1 / 10000 - wavenumber r p * h).
Proof.
  intros G H Em Nm No Li En U PU. subst U. destruct (C102_wavenumber_positive r p s a G H) as [K _]. rewrite !corrected_map.
  set (f := fun e => Rmax 0 (rough_at r (with_orography p (Some o)) l e + high_at r (with_orography p (Some o)) l e)). set (g := fun e => Rmax 0 (rough_at r (with_orography p None) l e + high_at r (with_orography p None) l e)).
  rewrite (nth_indep _ 0 (f d)) by now rewrite map_length. rewrite (nth_indep (map g l) 0 (g d)) by now rewrite map_length. rewrite !map_nth, En. subst f g. cbv beta. eapply Rle_trans; [apply max_close|]. rewrite !rough_other.
  rewrite !(high_formula r (with_orography p _) l _ s a) by exact H. unfold orography. cbn [p_oro p_model with_orography]. rewrite Em. destruct (Req_EM_T o (-32767)); [contradiction|]. destruct (Req_EM_T m (-32767)); [contradiction|]. rewrite !hills_other. cbn [fst]. replace (rough_at r p l (h, u) + hills r p l h (o - m) - (rough_at r p l (h, u) + 0)) with (hills r p l h (o - m)) by ring. now apply hills_size.
Qed.
(** An orography that is missing (NaN or -32767), of the grid or of the model, counts as level ground. *)
Theorem C102_unknown_orography r p l o m : p_model p = Some m -> o = None \/ o = Some (-32767) -> corrected r (with_orography p o) l = corrected r (with_orography p (Some m)) l.
Proof.
  intros Em Eo. rewrite !corrected_map. apply map_ext. intro e. rewrite !rough_other. do 2 f_equal. unfold high_at, delta_height, hcmask'. cbn [p_oro p_model with_orography]. rewrite Em. change (hcmask (with_orography p o)) with (hcmask p). change (hcmask (with_orography p (Some m))) with (hcmask p).
  assert (Ko : known o = false) by (destruct Eo as [->| ->]; unfold known, RMDI; [reflexivity|]; destruct (Req_EM_T (-32767) (-32767)); [reflexivity|contradiction]). rewrite Ko, andb_false_r. cbn [andb]. destruct (hcmask p && known (Some m) && known (Some m) && above (u_a r (with_orography p (Some m)) l) 0) eqn:Q; [|reflexivity]. apply andb_prop in Q as [Q _]. rewrite Q. ring.
Qed.
(** ** Scaling the winds scales the result. *)
Definition scale (c : R) (l : column) : column := map (fun e => (fst e, c * snd e)) l.
Lemma first_scaled c x l : l <> [] -> first_above x (scale c l) = (fst (first_above x l), c * snd (first_above x l)).
Proof.
  intro N. assert (E : find (fun e => above (fst e) x) (scale c l) = option_map (fun e => (fst e, c * snd e)) (find (fun e => above (fst e) x) l)) by (clear N; induction l as [|e l IH]; [reflexivity|]; cbn; destruct (above (fst e) x); [reflexivity|exact IH]).
  unfold first_above. rewrite E. destruct (find _ l); [reflexivity|]. cbn. destruct l; [congruence|reflexivity].
Qed.
Lemma closest_scaled c x l : forall b, closest (fst b, c * snd b) (scale c l) x = (fst (closest b l x), c * snd (closest b l x)).
Proof. induction l as [|e l IH]; intro b; [reflexivity|]. cbn. destruct (above (fst e) x); [apply IH|]. destruct (above (x - fst b) (x - fst e)); apply IH. Qed.
Lemma below_scaled c x l : nearest_below x (scale c l) = option_map (fun e => (fst e, c * snd e)) (nearest_below x l).
Proof. induction l as [|e l IH]; [reflexivity|]. cbn. destruct (above (fst e) x); [exact IH|]. cbn. f_equal. apply (closest_scaled c x l e). Qed.
Lemma u_scaled c x l : l <> [] -> u_at_h x (scale c l) = c * u_at_h x l.
Proof.
  intro N. unfold u_at_h. rewrite first_scaled, below_scaled by exact N. assert (E : match option_map (fun e => (fst e, c * snd e)) (nearest_below x l) with Some e => e | None => hd (0, 0) (scale c l) end = (fun e => (fst e, c * snd e)) (match nearest_below x l with Some e => e | None => hd (0, 0) l end)) by (destruct (nearest_below x l); [reflexivity|]; cbn; destruct l; [congruence|reflexivity]).
  rewrite E. cbn [fst snd]. destruct (Req_EM_T _ 0); unfold Rdiv; ring.
Qed.
Theorem C102_scaling r p l c : 0 < c -> rising l -> corrected r p (scale c l) = map (fun v => c * v) (corrected r p l).
Proof.
  intros Pc R. destruct l as [|e0 l0]; [rewrite !corrected_map; reflexivity|]. set (l := e0 :: l0) in *. assert (N : l <> []) by discriminate. rewrite !corrected_map. unfold scale at 3. rewrite !map_map. apply map_ext_in. intros e Ie. rewrite <- RmaxRmult by lra. rewrite Rmult_0_r. f_equal. rewrite Rmult_plus_distr_l. f_equal.
  - destruct R as [_ P]. rewrite Forall_forall in P. specialize (P e Ie). unfold rough_at. cbn [fst snd]. destruct (p_z0 p); [|reflexivity]. destruct (rcmask p); [|rewrite (proj2 (above_false RMDI (fst e))) by (unfold RMDI; lra); reflexivity]. destruct (above (h_ref r p) (fst e)); [|reflexivity]. unfold friction. rewrite u_scaled by exact N. unfold Rdiv. ring.
  - unfold high_at, u_a. cbn [fst]. rewrite u_scaled by exact N. set (u := u_at_h _ l). replace (above (c * u) 0) with (above u 0). 2: { destruct (above_spec u 0), (above_spec (c * u) 0); try reflexivity; exfalso; nra. } destruct (hcmask' p && above u 0); [|ring]. destruct (above _ _); ring.
Qed.
(** ** Times and calls. *)
Lemma valid_calm l : valid l = true <-> calm l.
Proof. unfold valid, calm. rewrite forallb_forall, Forall_forall. split; intros H e Ie; specialize (H e Ie); [apply negb_true_iff, above_false in H; exact H|apply negb_true_iff, above_false; exact H]. Qed.
(** Negative winds are refused, and otherwise each time is corrected on its own. *)
Theorem C102_times r p times : (Forall calm times -> fst (process r p times) = Ok (map (corrected r p) times)) /\ (~ Forall calm times -> fst (process r p times) = Err ValueError).
Proof.
  unfold process. cbn [fst]. induction times as [|l times [I1 I2]]; [split; [reflexivity|intro N; exfalso; apply N; constructor]|]. cbn [mapM map]. destruct (valid l) eqn:V.
  - split.
    + intro F. inversion F; subst. cbn. rewrite I1 by assumption. reflexivity.
    + intro N. cbn. rewrite I2; [reflexivity|]. intro F. apply N. constructor; [now apply valid_calm|exact F].
  - split; [|intros _; reflexivity]. intro F. inversion F as [|? ? C _]; subst. apply valid_calm in C. congruence.
Qed.
(** A second call of the plugin with the same winds gives the same result if the roughness length is positive everywhere (or not given). *)
Theorem C102_second_call_partial r p times : (p_z0 p = None \/ p_z0 p = Some None \/ exists z, p_z0 p = Some (Some z) /\ 0 < z) -> process r (snd (process r p times)) times = process r p times.
Proof.
  intro H. assert (E : in_place p = p). { unfold in_place. destruct p as [a s z o m]. cbn in *. f_equal. destruct H as [->|[->|(x & -> & P)]]; [reflexivity|reflexivity|]. cbn. now rewrite (proj2 (above_true x 0) P). } change (snd (process r p times)) with (in_place p). now rewrite E.
Qed.
(** ** A point on land beside the sea, and what goes wrong. *)
Definition grids : resolution := {| ppres := 2000; modres := 1500 |}.
Definition shore (z : R) : point := {| p_aos := Some (1 / 10); p_sigma := Some (1 / 4); p_z0 := Some (Some z); p_oro := Some 5; p_model := Some 5 |}.
Lemma shore_hilly z : hilly (shore z) (1 / 4) (1 / 10).
Proof. unfold hilly. cbn. repeat split; lra. Qed.
Lemma grids_ok : gridded grids.
Proof. split; cbn; lra. Qed.
Lemma sqrt2_bound : sqrt 2 < 3 / 2.
Proof. rewrite <- (sqrt_square (3 / 2)) by lra. apply sqrt_lt_1; lra. Qed.
Lemma shore_height z : h_ref grids (shore z) = 1.
Proof. destruct (C102_reference_height grids (shore z) _ _ grids_ok (shore_hilly z)) as (L & U & _). pose proof sqrt2_bound. pose proof sqrt2. rewrite Rmax_left in U by lra. lra. Qed.
Lemma shore_level z : level_ground (shore z).
Proof. intros d E. cbn in E. destruct (Req_EM_T 5 (-32767)); [lra|]. injection E as <-. ring. Qed.
Definition two_levels : column := [(1 / 2, 0); (1000, 10)].
Lemma two_rising : rising two_levels.
Proof. split; repeat constructor; cbn; lra. Qed.
Lemma two_calm : calm two_levels.
Proof. repeat constructor; cbn; lra. Qed.
Lemma two_at_one : u_at_h 1 two_levels = 10 / 1999.
Proof. unfold two_levels. pose proof (C102_interpolated_between [] (1 / 2) 0 1000 10 [] 1 two_rising ltac:(lra)) as E. cbn [app] in E. rewrite E. field. Qed.
Theorem C102_second_call_refuted : exists r p l, gridded r /\ rising l /\ calm l /\ fst (process r p [l]) = Ok [[0; 10]] /\ fst (process r (snd (process r p [l])) [l]) <> fst (process r p [l]).
Proof.
  exists grids, (shore 0), two_levels. assert (E1 : corrected grids (shore 0) two_levels = [0; 10]).
  { rewrite (C102_formula_unrough grids (shore 0) two_levels _ _ (shore_hilly 0)); [|right; left; exists 0; split; [reflexivity|lra]|apply two_rising]. unfold two_levels. cbn [map fst snd]. rewrite !(level_hills _ _ _ _ (shore_level 0)), !Rplus_0_r. rewrite !Rmax_right by lra. reflexivity. }
  assert (F : Forall calm [two_levels]) by (constructor; [apply two_calm|constructor]).
  assert (E2 : fst (process grids (shore 0) [two_levels]) = Ok [[0; 10]]). { rewrite (proj1 (C102_times grids (shore 0) [two_levels]) F). cbn [map]. now rewrite E1. }
  split; [apply grids_ok|]. split; [apply two_rising|]. split; [apply two_calm|]. split; [exact E2|]. rewrite E2. assert (E3 : snd (process grids (shore 0) [two_levels]) = shore (1 / 10000)). { cbn [snd process]. unfold in_place, shore. cbn. rewrite (proj2 (above_false 0 0)) by lra. reflexivity. }
  rewrite E3, (proj1 (C102_times grids (shore (1 / 10000)) [two_levels]) F). cbn [map]. intro Q. assert (Q0 : nth 0 (corrected grids (shore (1 / 10000)) two_levels) 0 = 0) by (apply (f_equal (fun q => match q with Ok (x :: _) => nth 0 x 0 | _ => 1 end)) in Q; exact Q).
  rewrite (C102_logarithmic grids (shore (1 / 10000)) two_levels _ _ (1 / 10000) 0 (0, 0) (shore_hilly _) eq_refl ltac:(lra) (shore_level _)) in Q0; [|cbn; auto with arith|rewrite shore_height; cbn; lra]. rewrite shore_height, two_at_one in Q0. cbn [nth two_levels fst] in Q0. unfold profile in Q0.
  pose proof (log_sign (1 / 2) (1 / 10000) ltac:(lra) ltac:(lra)) as A. pose proof (log_sign 1 (1 / 10000) ltac:(lra) ltac:(lra)) as B. assert (C : 0 < 10 / 1999 * ln (1 / 2 / (1 / 10000)) / ln (1 / (1 / 10000))) by (apply Rdiv_lt_0_compat; [apply Rmult_lt_0_compat; lra|exact B]). rewrite Rmax_right in Q0; lra.
Qed.
(** A roughness length above the reference height makes the wind stronger towards the ground. *)
Theorem C102_rises_with_height_refuted : exists r p l, gridded r /\ rising l /\ calm l /\ level_ground p /\ nth 1 (corrected r p l) 0 < nth 0 (corrected r p l) 0.
Proof.
  exists grids, (shore 2), [(1 / 4, 0); (1 / 2, 0); (1000, 10)]. set (l := [(1 / 4, 0); (1 / 2, 0); (1000, 10)]). assert (Ri : rising l) by (split; repeat constructor; cbn; lra). split; [apply grids_ok|]. split; [exact Ri|]. split; [repeat constructor; cbn; lra|]. split; [apply shore_level|].
  rewrite !(C102_logarithmic grids (shore 2) l _ _ 2 _ (0, 0) (shore_hilly _) eq_refl ltac:(lra) (shore_level _)); try (rewrite shore_height; cbn; lra); try (cbn; auto with arith). rewrite shore_height. apply C102_profile_upside_down; cbn; try lra. pose proof (C102_interpolated_between [(1 / 4, 0)] (1 / 2) 0 1000 10 [] 1 Ri ltac:(lra)) as E. cbn [app] in E. unfold l. rewrite E. lra.
Qed.
(** With winds at one level the wind at the depth of the hills is extrapolated in proportion to the height: the correction is that of a wind sheared from the ground up, for hills of any scale. *)
Theorem C102_single_level r p h u s a d : gridded r -> hilly p s a -> p_z0 p = None -> orography p = Some d -> 0 < h -> 0 < u -> 1 / 10000 < wavenumber r p * h -> corrected r p [(h, u)] = [Rmax 0 (u + exp (- (wavenumber r p * h)) * u * d / h)].
Proof.
  intros G H Ez Ed Ph Pu Lh. destruct (C102_wavenumber_positive r p s a G H) as [K _]. rewrite (C102_formula_unrough r p [(h, u)] s a H (or_introl Ez)) by (split; repeat constructor; exact Ph). cbn [map fst snd]. rewrite Ed. unfold hills. cbv zeta. rewrite C102_interpolated_single by exact Ph. destruct (Rlt_dec 0 _) as [Q|Q]. 2: { exfalso. apply Q. apply Rmult_lt_0_compat; [|exact Pu]. apply Rdiv_lt_0_compat; [apply Rdiv_lt_0_compat; lra|exact Ph]. } destruct (Rlt_dec _ _); [|lra]. do 3 f_equal. field. split; lra.
Qed.
(** The hypotheses are met: hills, roughness, three levels, a rise of the ground of 20 m. *)
Example C102_case : let p := {| p_aos := Some (1 / 10); p_sigma := Some 20; p_z0 := Some (Some (1 / 10)); p_oro := Some 120; p_model := Some 100 |} in let l := [(10, 5); (50, 8); (500, 12)] in
  hilly p 20 (1 / 10) /\ gridded grids /\ rising l /\ calm l /\ orography p = Some 20 /\ u_at_h 30 l = 13 / 2 /\ u_at_h 5 l = 5 / 2.
Proof.
  cbv zeta. assert (Ri : rising [(10, 5); (50, 8); (500, 12)]) by (split; repeat constructor; cbn; lra). split; [unfold hilly; cbn; repeat split; lra|]. split; [apply grids_ok|]. split; [exact Ri|]. split; [repeat constructor; cbn; lra|]. split; [|split].
  - unfold orography. cbn. destruct (Req_EM_T 120 (-32767)); [lra|]. destruct (Req_EM_T 100 (-32767)); [lra|]. f_equal. ring.
  - pose proof (C102_interpolated_between [] 10 5 50 8 [(500, 12)] 30 Ri ltac:(lra)) as E. cbn [app] in E. rewrite E. field.
  - rewrite (C102_interpolated_below 10 5 [(50, 8); (500, 12)] 5 Ri) by lra. field.
Qed.

Print Assumptions C102_interpolated_between.
Print Assumptions C102_interpolated_below.
Print Assumptions C102_interpolated_above.
Print Assumptions C102_interpolated_single.
Print Assumptions C102_interpolated_bounded.
Print Assumptions C102_wavenumber.
Print Assumptions C102_wavenumber_positive.
Print Assumptions C102_reference_height.
Print Assumptions C102_size.
Print Assumptions C102_not_negative.
Print Assumptions C102_smooth_unchanged.
Print Assumptions C102_formula.
Print Assumptions C102_formula_unrough.
Print Assumptions C102_aloft_unchanged.
Print Assumptions C102_logarithmic.
Print Assumptions C102_profile_rises.
Print Assumptions C102_profile_ends.
Print Assumptions C102_profile_upside_down.
Print Assumptions C102_higher_is_windier.
Print Assumptions C102_height_effect_bounded.
Print Assumptions C102_unknown_orography.
Print Assumptions C102_scaling.
Print Assumptions C102_times.
Print Assumptions C102_second_call_partial.
Print Assumptions C102_second_call_refuted.
Print Assumptions C102_rises_with_height_refuted.
Print Assumptions C102_single_level.
