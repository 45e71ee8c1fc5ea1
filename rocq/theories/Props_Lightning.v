(** C42: the lightning nowcast. *)
From Verif Require Import Base Interp Model_Rescale Model_Nbhood Model_Spatial Model_NbhoodCube Proofs_Weights Proofs_NbhoodCube Model_Lightning Spec_Lightning Proofs_Lightning.
Local Open Scope Q_scope.

Definition shaped (n : nat) (guess rate : list (Z * field)) (precip : list (Q * list (Z * field))) (ice : option (list (Q * field))) : Prop :=
  (forall p, In p guess -> length (snd p) = n) /\ (forall p, In p rate -> length (snd p) = n) /\
  (forall p q, In p precip -> In q (snd p) -> length (snd q) = n) /\ (forall i p, ice = Some i -> In p i -> length (snd p) = n).

(** One output for each time of the precipitation probabilities, in their order; at each point it is the probability of the specification, computed from the first guess
    nearest in time (at most 7201 s away), the rate of lightning at that time and the probabilities at the three precipitation thresholds and three ice thresholds. *)
Theorem C42_value radius xs ys frt guess rate precip ice out n : lightning_process radius xs ys frt guess rate precip ice = Ok out -> shaped n guess rate precip ice ->
  (exists template, at_threshold (1 # 2) precip = Ok template /\ map fst out = map fst template) /\
  forall k t l, nth_error out k = Some (t, l) -> length l = n /\
  exists g r any high torr,
    (exists t', In (t', g) guess /\ (Z.abs (t' - t) <= 7201)%Z /\ forall p, In p guess -> (Z.abs (t' - t) <= Z.abs (fst p - t))%Z) /\ In (t, r) rate /\
    slice_of (1 # 2) t precip any /\ slice_of 7 t precip high /\ slice_of 35 t precip torr /\
    exists ices : option (field * field * field),
      match ice, ices with
      | None, None => True
      | Some i, Some (i1, i2, i3) => at_threshold (1 # 2) i = Ok i1 /\ at_threshold 1 i = Ok i2 /\ at_threshold 2 i = Ok i3
      | _, _ => False end /\
      forall j, (j < n)%nat -> nth j l 0 == expected (inject_Z (t - frt) / 60) (nth j g 0) (nth j r 0) (nth j any 0) (nth j high 0) (nth j torr 0)
        (option_map (fun i => (nth j (fst (fst i)) 0, nth j (snd (fst i)) 0, nth j (snd i) 0)) ices).
Proof.
  intros H [Sg [Sr [Sp Si]]]. destruct (lightning_slices _ _ _ _ _ _ _ _ _ H) as [tm [T1 [T2 P]]]. split; [exists tm; auto|]. intros k t l Hk.
  destruct (P k t l Hk) as [g0 [wet [G [W I]]]]. destruct (wet_ok _ _ _ _ _ _ _ n G W Sg Sr Sp) as [Lw [g [r [any [high [torr [A [B [C [D [E V]]]]]]]]]]].
  destruct ice as [i|].
  - destruct (apply_ice_ok frt t i wet l n I Lw (fun p Hp => Si i p eq_refl Hp)) as [Ll [i1 [i2 [i3 [J1 [J2 [J3 J]]]]]]]. split; [exact Ll|].
    exists g, r, any, high, torr. repeat (split; [trivial|]). exists (Some (i1, i2, i3)). split; [auto|]. intros j Hj. rewrite J by exact Hj. cbn [option_map fst snd]. unfold expected. cbn [with_ice].
    destruct (inject_Z (t - frt) / 60 <? 150); [|apply V; exact Hj]. set (f := inject_Z (t - frt) / 60) in *.
    assert (X : forall a b b', b == b' -> Qmax a b == Qmax a b') by (intros a b b' EE; qmm; lra). apply X, X, X. apply V. exact Hj.
  - subst l. split; [exact Lw|]. exists g, r, any, high, torr. repeat (split; [trivial|]). exists None. split; [exact I|]. intros j Hj. cbn [option_map]. unfold expected, with_ice. apply V. exact Hj.
Qed.

(** From the formula: with probabilities between 0 and 1 the result is one, at any lead time; it is monotone in every input; ... *)
Lemma limit_bounds p : (67 # 10000) <= precip_limit p <= 1.
Proof. unfold precip_limit. destruct (Qleb_spec p 0); [lra|]. destruct (Qleb_spec p (1 # 20)); [lra|]. destruct (Qleb_spec p (1 # 10)); lra. Qed.
Lemma unit_bounds i : 0 <= unit i <= 1.
Proof. unfold unit. qmm; lra. Qed.
Lemma effect_bounds f c i : 0 <= f -> f < 150 -> 0 <= c -> c <= 1 -> 0 <= ice_effect f c i <= c.
Proof.
  intros F F' C C'. unfold ice_effect. assert (U := unit_bounds i). assert (E : f / 150 == f * (1 # 150)) by field. rewrite E. set (a := 1 - f * (1 # 150)). assert (0 <= a <= 1) by (unfold a; lra).
  assert (0 <= c * a <= c) by nra. nra.
Qed.
Lemma formula_probability f guess rate any high torr ices : 0 <= f -> 0 <= guess <= 1 -> 0 <= expected f guess rate any high torr ices <= 1.
Proof.
  intros F G. unfold expected. assert (L := limit_bounds any). assert (R : 0 <= raised f guess rate high torr).
  { unfold raised. destruct (_ || _)%bool; [qmm; lra|]. destruct (_ || _)%bool; [qmm; lra|lra]. }
  assert (W : 0 <= Qmin (raised f guess rate high torr) (precip_limit any) <= 1) by (qmm; lra). set (p := Qmin _ _) in *. clearbody p. clear R L.
  unfold with_ice. destruct ices as [[[i1 i2] i3]|]; [|exact W]. destruct (Qltb_spec f 150) as [F'|_]; [|exact W].
  assert (A := effect_bounds f (9 # 10) i3 F F' ltac:(lra) ltac:(lra)). assert (B := effect_bounds f (1 # 2) i2 F F' ltac:(lra) ltac:(lra)). assert (C := effect_bounds f (1 # 10) i1 F F' ltac:(lra) ltac:(lra)).
  qmm; lra.
Qed.
Theorem C42_probability radius xs ys frt guess rate precip ice out n k t l : lightning_process radius xs ys frt guess rate precip ice = Ok out -> shaped n guess rate precip ice ->
  (forall p x, In p guess -> In x (snd p) -> 0 <= x <= 1) -> nth_error out k = Some (t, l) -> (frt <= t)%Z -> forall x, In x l -> 0 <= x <= 1.
Proof.
  intros H S G Hk Ht x Hx. destruct (C42_value _ _ _ _ _ _ _ _ _ n H S) as [_ P]. destruct (P k t l Hk) as [Ll [g [r [any [high [torr [[t' [Ig _]] [_ [_ [_ [_ [ices [_ V]]]]]]]]]]]]].
  destruct (In_nth l x 0 Hx) as [j [Hj <-]]. rewrite Ll in Hj. rewrite (V j Hj). apply formula_probability.
  - assert (0 <= inject_Z (t - frt)) by (change 0 with (inject_Z 0); rewrite <- Zle_Qle; lia). apply Qle_shift_div_l; [reflexivity|]. lra.
  - apply (G _ (nth j g 0) Ig). apply nth_In. assert (Lg := proj1 S _ Ig). cbn [snd] in *. rewrite Lg. exact Hj.
Qed.
Lemma limit_mono p p'  : p <= p' -> precip_limit p <= precip_limit p'.
Proof.
  intro H. unfold precip_limit. destruct (Qleb_spec p 0), (Qleb_spec p' 0); try lra; destruct (Qleb_spec p' (1 # 20)); try lra; destruct (Qleb_spec p (1 # 20)); try lra;
    destruct (Qleb_spec p' (1 # 10)); try lra; destruct (Qleb_spec p (1 # 10)); lra.
Qed.
Theorem C42_formula_monotone f g g' r r' a a' h h' t t' i1 i2 i3 j1 j2 j3 : g <= g' -> r <= r' -> a <= a' -> h <= h' -> t <= t' -> i1 <= j1 -> i2 <= j2 -> i3 <= j3 ->
  expected f g r a h t (Some (i1, i2, i3)) <= expected f g' r' a' h' t' (Some (j1, j2, j3)) /\ expected f g r a h t None <= expected f g' r' a' h' t' None.
Proof.
  intros Hg Hr Ha Hh Ht H1 H2 H3. unfold expected. assert (L := limit_mono a a' Ha).
  assert (R : raised f g r h t <= raised f g' r' h' t').
  { unfold raised. destruct (Qleb_spec ((1 # 2) + f / 180) r), (Qleb_spec ((1 # 2) + f / 180) r'), (Qleb_spec (1 # 5) t), (Qleb_spec (1 # 5) t'); cbn [orb]; try (exfalso; lra);
      destruct (Qleb_spec 0 r), (Qleb_spec 0 r'), (Qleb_spec (2 # 5) h), (Qleb_spec (2 # 5) h'); cbn [orb]; try (exfalso; lra); qmm; lra. }
  assert (M : Qmin (raised f g r h t) (precip_limit a) <= Qmin (raised f g' r' h' t') (precip_limit a')) by (qmm; lra). split; [|exact M].
  set (p := Qmin _ _) in *. set (p' := Qmin _ _) in *. clearbody p p'. unfold with_ice. destruct (Qltb_spec f 150) as [F|_]; [|exact M].
  assert (X : forall c i j, 0 <= c -> i <= j -> ice_effect f c i <= ice_effect f c j).
  { intros c i j Hc Hij. unfold ice_effect. assert (E : f / 150 == f * (1 # 150)) by field. assert (U : unit i <= unit j) by (unfold unit; qmm; lra). rewrite E. assert (0 <= c * (1 - f * (1 # 150))) by nra. nra. }
  assert (A := X (9 # 10) i3 j3 ltac:(lra) H3). assert (B := X (1 # 2) i2 j2 ltac:(lra) H2). assert (C := X (1 # 10) i1 j1 ltac:(lra) H1). qmm; lra.
Qed.
(** ... where rain is ruled out it is at most 0.0067 (without ice), where rain is at least 10 percent likely nothing is taken off; inside a storm it is what the rain allows; ice never lowers it, is
    worth 0.9, 0.5 and 0.1 at once, and nothing from two and a half hours on. *)
Theorem C42_formula_limits f g r a h t ices :
  (a <= 0 -> expected f g r a h t None <= 67 # 10000) /\ (1 # 10 <= a -> g <= 1 -> g <= expected f g r a h t None) /\
  ((1 # 2) + f / 180 <= r -> expected f g r a h t None == precip_limit a) /\
  expected f g r a h t None <= expected f g r a h t ices /\
  (forall i1 i2 i3, ices = Some (i1, i2, i3) -> 1 <= i3 -> f == 0 -> 9 # 10 <= expected f g r a h t ices) /\
  (150 <= f -> expected f g r a h t ices == expected f g r a h t None).
Proof.
  assert (L := limit_bounds a). assert (G : g <= raised f g r h t).
  { unfold raised. destruct (_ || _)%bool; [qmm; lra|]. destruct (_ || _)%bool; [qmm; lra|lra]. }
  unfold expected. repeat split.
  - intro A. unfold with_ice, precip_limit. destruct (Qleb_spec a 0); [|lra]. qmm; lra.
  - intros A G1. unfold with_ice. assert (P : precip_limit a == 1).
    { unfold precip_limit. destruct (Qleb_spec a 0); [lra|]. destruct (Qleb_spec a (1 # 20)); [lra|]. destruct (Qleb_spec a (1 # 10)); lra. }
    rewrite P. qmm; lra.
  - intro R. unfold with_ice, raised. destruct (Qleb_spec ((1 # 2) + f / 180) r); [|lra]. cbn [orb]. qmm; lra.
  - unfold with_ice. destruct ices as [[[i1 i2] i3]|]; [|lra]. destruct (f <? 150); [|lra]. qmm; lra.
  - intros i1 i2 i3 -> I F. unfold with_ice. destruct (Qltb_spec f 150); [|lra].
    assert (E : ice_effect f (9 # 10) i3 == 9 # 10). { unfold ice_effect. assert (U : unit i3 == 1) by (unfold unit; qmm; lra). rewrite U, F. field. }
    rewrite E. qmm; lra.
  - intro F. unfold with_ice. destruct ices as [[[i1 i2] i3]|]; [|reflexivity]. destruct (Qltb_spec f 150); [lra|reflexivity].
Qed.

(** The neighbourhood step has no effect: the radius given to the plugin does not change the result. *)
Theorem C42_neighbourhood_refuted radius radius' xs ys frt guess rate precip ice out out' :
  lightning_process radius xs ys frt guess rate precip ice = Ok out -> lightning_process radius' xs ys frt guess rate precip ice = Ok out' -> out = out'.
Proof.
  unfold lightning_process. change (lightning_nbhood radius) with (Ok {| b_radius := None; b_radii := Some [radius; 2 * radius]; b_lead_times := Some [0; 6] |}).
  change (lightning_nbhood radius') with (Ok {| b_radius := None; b_radii := Some [radius'; 2 * radius']; b_lead_times := Some [0; 6] |}). cbn [bind].
  destruct (at_threshold (1 # 2) precip) as [tm|e]; [|discriminate]. cbn [bind]. destruct (mapM _ tm) as [first|e]; [|discriminate]. cbn [bind]. destruct (mapM _ first) as [wet|e]; [|discriminate]. cbn [bind].
  destruct (match ice with None => Ok wet | Some i => _ end) as [o|e]; [|discriminate]. cbn [bind]. destruct (nbhood_cells _ xs ys _) as [c|e]; [|discriminate]. destruct (nbhood_cells _ xs ys _) as [c'|e]; [|discriminate].
  cbn [bind]. congruence.
Qed.
(** Only one time can be processed: with two or more the neighbourhood step, whose result is not used, raises. *)
Theorem C42_several_times_refuted radius xs ys frt guess rate precip ice out : lightning_process radius xs ys frt guess rate precip ice = Ok out -> length out = 1%nat.
Proof.
  unfold lightning_process. change (lightning_nbhood radius) with (Ok {| b_radius := None; b_radii := Some [radius; 2 * radius]; b_lead_times := Some [0; 6] |}). cbn [bind].
  destruct (at_threshold (1 # 2) precip) as [tm|e]; [|discriminate]. cbn [bind]. destruct (mapM _ tm) as [first|e]; [|discriminate]. cbn [bind]. destruct (mapM _ first) as [wet|e]; [|discriminate]. cbn [bind].
  destruct (match ice with None => Ok wet | Some i => _ end) as [o|e]; [|discriminate]. cbn [bind]. destruct (nbhood_cells _ xs ys _) as [c|e] eqn:N; [|discriminate]. cbn [bind]. intro H. apply Proofs_Nbhood.Ok_inj in H. subst o.
  destruct (nbhood_cells_ok _ _ _ _ _ N) as [q [B _]]. unfold base_radius in B. cbn [b_lead_times b_radii] in B. apply Proofs_Nbhood.Ok_inj in B. apply (f_equal (@length Q)) in B. rewrite !map_length in B. exact B.
Qed.

(** A case: three points, a storm at the first, rain ruled out at the second, ice over the third. *)
Definition km := [0; 1000; 2000; 3000; 4000; 5000; 6000; 7000; 8000; 9000; 10000; 11000; 12000].
Definition case_rate : list (Z * field) := [(3600%Z, [2; -1; 1 # 2])].
Definition case_guess : list (Z * field) := [(0%Z, [0; 0; 0]); (3600%Z, [1 # 10; 1 # 2; 1 # 5])].
Definition case_precip : list (Q * list (Z * field)) := [(1 # 2, [(3600%Z, [1; 0; 3 # 40])]); (7, [(3600%Z, [1 # 2; 0; 0])]); (35, [(3600%Z, [0; 0; 0])])].
Definition case_ice : list (Q * field) := [(1 # 2, [0; 0; 1]); (1, [0; 0; 1]); (2, [0; 0; 1])].
Example C42_case : exists l, lightning_process 5000 km km 0 case_guess case_rate case_precip (Some case_ice) = Ok [(3600%Z, l)] /\ shaped 3 case_guess case_rate case_precip (Some case_ice) /\
  nth 0 l 0 == 1 /\ nth 1 l 0 == 67 # 10000 /\ nth 2 l 0 == 54 # 100.
Proof.
  eexists. split; [vm_compute; reflexivity|]. split; [|split; [vm_compute; reflexivity|split; vm_compute; reflexivity]]. unfold shaped, case_guess, case_rate, case_precip, case_ice. repeat split.
  - intros p [<-|[<-|[]]]; reflexivity.
  - intros p [<-|[]]; reflexivity.
  - intros p q [<-|[<-|[<-|[]]]] [<-|[]]; reflexivity.
  - intros i p E. injection E as <-. intros [<-|[<-|[<-|[]]]]; reflexivity.
Qed.

Print Assumptions C42_value.
Print Assumptions C42_probability.
Print Assumptions C42_formula_monotone.
Print Assumptions C42_formula_limits.
Print Assumptions C42_neighbourhood_refuted.
Print Assumptions C42_several_times_refuted.
