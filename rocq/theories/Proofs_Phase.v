From Verif Require Import Base Interp Model_Rescale Proofs_Rescale Model_Threshold Spec_Threshold Proofs_Threshold Model_Probability Model_Reference Model_Phase Spec_Phase.
Local Open Scope Q_scope.

Lemma any_of_false p l : any_of p l = false <-> forall i, (i < length l)%nat -> when (fun x => p x = false) (nth i l None).
Proof.
  induction l as [|o l IH]; cbn [any_of existsb length].
  - split; [intros _ i H; lia|reflexivity].
  - rewrite Bool.orb_false_iff. fold (any_of p l). rewrite IH. split.
    + intros [A B] [|i] Hi; cbn [nth]; [destruct o; exact A || exact I|apply B; lia].
    + intro H. split; [specialize (H 0%nat ltac:(lia)); destruct o; [exact H|reflexivity]|]. intros i Hi. apply (H (S i)). lia.
Qed.
Lemma same2 a b : same_shape [a; b] = true <-> b = a.
Proof. cbn. rewrite Bool.andb_true_r, Nat.eqb_eq. split; auto. Qed.
Lemma same3 a b c : same_shape [a; b; c] = true <-> b = a /\ c = a.
Proof. cbn. rewrite Bool.andb_true_r, Bool.andb_true_iff, !Nat.eqb_eq. intuition. Qed.
Lemma zip_nth (f : option Q -> option Q -> option Q) a b i : length b = length a -> (i < length a)%nat -> nth i (zipw f a b) None = f (nth i a None) (nth i b None).
Proof. intros E H. apply zipw_nth; lia. Qed.

(** ** Sleet *)
Lemma sleet_spec snow rain out : sleet_probability snow rain = Ok out ->
  pointwise3 (fun s r o => match s, r with Some s, Some r => exists v, o = Some v /\ v == 1 - s - r /\ 0 <= v | _, _ => o = None end) snow rain out.
Proof.
  unfold sleet_probability. destruct (same_shape _) eqn:S; cbn [negb]; [|discriminate]. apply same2 in S.
  set (f := map _ _). destruct (any_of _ f) eqn:A; [discriminate|]. intro H. injection H as <-.
  assert (L : length f = length snow) by (unfold f; rewrite map_length, zipw_length; lia).
  split; [exact S|]. split; [exact L|]. intros i Hi.
  pose proof (proj1 (any_of_false _ _) A i ltac:(lia)) as B.
  assert (E : nth i f None = option_map (fun v => 1 - v) (lift2 Qplus (nth i snow None) (nth i rain None)))
    by (unfold f; rewrite nth_map_lt with (d := None) by (rewrite zipw_length; lia); rewrite zip_nth by lia; reflexivity).
  rewrite E in *. destruct (nth i snow None) as [s|], (nth i rain None) as [r|]; cbn [lift2 option_map] in *; try reflexivity.
  eexists; split; [reflexivity|]. cbn [when] in B. destruct (Qltb_spec (1 - (s + r)) 0); [discriminate|]. split; lra.
Qed.
Lemma sleet_accepted snow rain : length rain = length snow -> (forall i s r, nth i snow None = Some s -> nth i rain None = Some r -> s + r <= 1) -> exists out, sleet_probability snow rain = Ok out.
Proof.
  intros L H. unfold sleet_probability. rewrite (proj2 (same2 (length snow) (length rain))) by exact L. cbn [negb].
  set (f := map _ _). replace (any_of _ f) with false; [eauto|]. symmetry. apply any_of_false. intros i Hi. unfold f in *.
  rewrite map_length, zipw_length in Hi by lia. rewrite nth_map_lt with (d := None) by (rewrite zipw_length; lia). rewrite zip_nth by lia.
  specialize (H i). destruct (nth i snow None) as [s|], (nth i rain None) as [r|]; cbn; try exact I. specialize (H s r eq_refl eq_refl).
  destruct (Qltb_spec (1 - (s + r)) 0); [lra|reflexivity].
Qed.
Lemma sleet_refused snow rain out i s r : sleet_probability snow rain = Ok out -> nth i snow None = Some s -> nth i rain None = Some r -> s + r <= 1.
Proof.
  intros H A B. destruct (sleet_spec _ _ _ H) as (_ & _ & C). destruct (Nat.lt_ge_cases i (length snow)) as [Hi|Hi]; [|rewrite nth_overflow in A by exact Hi; discriminate].
  specialize (C i Hi). rewrite A, B in C. destruct C as (v & _ & E & N). lra.
Qed.

(** ** Rain and snow parts *)
Lemma splitter_inv is_rain cubes name out : snow_splitter is_rain cubes = Ok (name, out) ->
  exists rain snow precip, extract_cube "rain" cubes = Ok rain /\ extract_cube "snow" cubes = Ok snow /\ extract_cube "precipitation" cubes = Ok precip /\
    length (p_data snow) = length (p_data rain) /\ length (p_data precip) = length (p_data rain) /\ length out = length (p_data rain) /\
    name = (if is_rain then replace "lwe_" "" (replace "precipitation" "rainfall" (p_name precip)) else replace "precipitation" "snowfall" (p_name precip)) /\
    forall i, (i < length out)%nat ->
      match nth i (p_data rain) None, nth i (p_data snow) None, nth i (p_data precip) None with
      | Some r, Some s, Some p => r + s <= 1 /\ exists v, nth i out None = Some v /\ v == p * ((if is_rain then r - s else s - r) + 1) / 2
      | _, _, _ => nth i out None = None
      end.
Proof.
  unfold snow_splitter. destruct (extract_cube "rain" cubes) as [rain|]; [|discriminate]. cbn [bind].
  destruct (extract_cube "snow" cubes) as [snow|]; [|discriminate]. cbn [bind].
  destruct (extract_cube "precipitation" cubes) as [precip|]; [|discriminate]. cbn [bind].
  destruct (spatial_match _); cbn [negb]; [|discriminate]. destruct (same_shape _) eqn:S; cbn [negb]; [|discriminate]. cbn [map] in S. apply same3 in S. destruct S as [S1 S2].
  destruct (any_of _ _) eqn:A; [discriminate|]. intro H. exists rain, snow, precip. do 3 (split; [reflexivity|]). do 2 (split; [assumption|]).
  destruct is_rain; apply Ok_inj in H || (injection H as Hn Ho); subst.
  all: match goal with |- context [length (zipw _ _ ?c)] => set (co := c) end;
    assert (Lc : length co = length (p_data rain)) by (unfold co; rewrite map_length, zipw_length; lia);
    assert (Lo : length (zipw (lift2 Qmult) (p_data precip) co) = length (p_data rain)) by (rewrite zipw_length; lia);
    (split; [exact Lo|]); (split; [reflexivity|]); intros i Hi; rewrite Lo in Hi; rewrite zip_nth by lia;
    unfold co; rewrite nth_map_lt with (d := None) by (rewrite zipw_length; lia); rewrite zip_nth by lia;
    pose proof (proj1 (any_of_false _ _) A i ltac:(rewrite zipw_length; lia)) as B; rewrite zip_nth in B by lia;
    destruct (nth i (p_data rain) None) as [r|], (nth i (p_data snow) None) as [s|], (nth i (p_data precip) None) as [p|]; cbn [lift2 option_map when] in *; try reflexivity;
    destruct (Qltb_spec 1 (r + s)); try discriminate; (split; [lra|]); eexists; (split; [reflexivity|]); field.
Qed.

(** ** Masks of the phases *)
Lemma validate_ok name units data vs : validate_snow_fraction name units data = Ok vs <->
  name = "snow_fraction"%string /\ units = "1"%string /\ data = map Some vs /\ Forall (fun v => 0 <= v <= 1) vs.
Proof.
  unfold validate_snow_fraction. destruct (String.eqb_spec name "snow_fraction") as [->|N]; cbn [negb]; [|split; [discriminate|intros [H _]; contradiction]].
  destruct (String.eqb_spec units "1") as [->|N]; cbn [negb]; [|split; [discriminate|intros (_ & H & _); contradiction]].
  assert (G : forall l, existsb (fun o : option Q => match o with None => true | _ => false end) l = false <-> exists vs, l = map Some vs).
  { induction l as [|[x|] l IH]; cbn; [split; [exists []; reflexivity|reflexivity]| |].
    - rewrite IH. split; [intros (vs' & ->); exists (x :: vs'); reflexivity|]. intros ([|y vs'] & E); [discriminate|]. injection E as -> ->. eauto.
    - split; [discriminate|]. intros ([|y vs'] & E); discriminate. }
  destruct (existsb _ data) eqn:M.
  - split; [discriminate|]. intros (_ & _ & E & _). assert (existsb (fun o : option Q => match o with None => true | _ => false end) data = false) by (apply G; eauto). congruence.
  - apply G in M. destruct M as (ws & ->). rewrite map_map, map_id.
    assert (A : any_of (fun v => ((v <? 0) || (1 <? v))%bool) (map Some ws) = false <-> Forall (fun v => 0 <= v <= 1) ws).
    { unfold any_of. induction ws as [|w ws IH]; cbn [map existsb]; [split; constructor|]. rewrite !Bool.orb_false_iff, IH.
      destruct (Qltb_spec w 0), (Qltb_spec 1 w); (split; intro K; [try (destruct K as [[? ?] ?]; discriminate)|try (inversion K; subst; lra)]).
      - constructor; [lra|apply K].
      - inversion K; subst. repeat split; assumption. }
    destruct (any_of _ _) eqn:B.
    + split; [discriminate|]. intros (_ & _ & E & F). apply (f_equal (map (fun o => match o with Some v => v | None => 0 end))) in E. rewrite !map_map, !map_id in E. subst.
      apply A in F. discriminate.
    + split.
      * intro H. injection H as ->. repeat split; apply A; reflexivity.
      * intros (_ & _ & E & _). apply (f_equal (map (fun o => match o with Some v => v | None => 0 end))) in E. rewrite !map_map, !map_id in E. congruence.
Qed.

(** ** Hail *)
Lemma updraught_interp w : np_interp [(5, 0); (50, 1 # 4)] w == updraught_fraction w.
Proof.
  unfold np_interp, updraught_fraction, np_from, lerp. destruct (Qltb_spec w 5) as [A|A], (Qleb_spec w 5) as [B|B]; try lra; try reflexivity.
  - assert (E : w == 5) by lra. destruct (Qleb_spec 50 w); [lra|]. destruct (Qeqb_spec 5 w) as [|N]; [reflexivity|]. destruct N. lra.
  - destruct (Qleb_spec 50 w) as [C|C], (Qleb_spec w 50) as [D|D]; try lra; try reflexivity.
    + assert (E : w == 50) by lra. rewrite E. reflexivity.
    + destruct (Qeqb_spec 5 w); [lra|]. field.
Qed.
Lemma updraught_range w : 0 <= updraught_fraction w <= 1 # 4.
Proof.
  unfold updraught_fraction. destruct (Qleb_spec w 5), (Qleb_spec w 50); try lra.
  assert (E : (w - 5) / 180 == (w - 5) * (1 # 180)) by field. rewrite E. lra.
Qed.
Lemma updraught_mono w w' : w <= w' -> updraught_fraction w <= updraught_fraction w'.
Proof.
  intro H. pose proof (updraught_range w). pose proof (updraught_range w'). unfold updraught_fraction in *.
  assert (E : forall w, (w - 5) / 180 == (w - 5) * (1 # 180)) by (intro; field).
  pose proof (E w). pose proof (E w').
  destruct (Qleb_spec w 5), (Qleb_spec w 50), (Qleb_spec w' 5), (Qleb_spec w' 50); lra.
Qed.

(** ** Showers *)
Definition indicator (c : cmp) (t x : Q) : Q := if cmp_fun c x t then 1 else 0.
Lemma zipw_map_self {A B C} (f : A -> B -> C) (g : A -> B) l : zipw f l (map g l) = map (fun x => f x (g x)) l.
Proof. induction l; cbn; congruence. Qed.
Lemma threshold_cube_spec t op c l : cmp_lookup op = Some c -> exists f, threshold_cube t op l = Ok f /\ length f = length l /\ forall i, (i < length l)%nat -> oeq (nth i f None) (option_map (indicator c t) (nth i l None)).
Proof.
  intro L. unfold threshold_cube. set (p := {| tp_thresholds := [t]; tp_bounds := [gen_bounds 1 t]; tp_cmp := c; tp_collapse := Cnone |}).
  assert (INI : threshold_init (TVscalar t) None None op Cnone = Ok p) by (unfold threshold_init; cbn [andb set_thresholds bind map]; rewrite L; reflexivity).
  rewrite INI. cbn [bind]. pose proof (init_wf _ _ _ _ _ _ INI) as W.
  assert (SH : Forall (shaped (length l)) [to_slice l]) by (constructor; [split; cbn; apply map_length|constructor]).
  assert (G := gen_bounds_1 t).
  assert (X : exists out, process p (length l) [to_slice l] = Ok out).
  { apply (process_ok_iff p _ _ (proj1 W)); [discriminate|]. split; [constructor; [reflexivity|constructor]|].
    intros k Hk. cbn in Hk. assert (k = 0)%nat as -> by lia. left. cbn. destruct G as [-> ->]. reflexivity. }
  destruct X as (out & X). rewrite X. cbn [bind].
  destruct (process_shape p _ _ _ (proj1 W) SH X) as [LO FO]. cbn in LO. destruct out as [|f [|]]; try discriminate.
  exists f. split; [reflexivity|]. inversion FO; subst. split; [assumption|]. intros i Hi.
  assert (M := process_mean p _ _ _ 0%nat i W SH ltac:(discriminate) X ltac:(cbn; lia) Hi). cbn [nth tp_thresholds tp_bounds tp_cmp p map] in M.
  assert (E : member i (to_slice l) = nth i l None).
  { unfold member, to_slice; cbn [sl_mask sl_data]. rewrite nth_map_lt with (d := None) by lia. rewrite nth_map_lt with (d := None) by lia. destruct (nth i l None); reflexivity. }
  rewrite E in M. unfold mean_of in M. destruct (nth i l None) as [x|], (nth i f None) as [v|]; cbn [unmasked option_map oeq] in *; try exact I.
  - destruct M as [_ (ts & F & V)]. inversion F as [|? y ? ? T F' ]; subst. inversion F'; subst.
    rewrite V. unfold Qlen. cbn. unfold indicator. assert (C := cmp_fun_holds c x t).
    destruct T as [[_ [[T Y]|[T Y]]]|[T Y]]; [| |destruct G as [G1 G2]; rewrite G1, G2 in T; lra].
    + apply C in T. rewrite T, Y. reflexivity.
    + destruct (cmp_fun c x t); [destruct T; apply C; reflexivity|]. rewrite Y. reflexivity.
  - discriminate.
  - destruct M as [M _]. exact (M eq_refl).
Qed.
Definition unmasked_cloud (i : nat) (cloud convection : list (list (option Q))) : list (option Q * option Q) :=
  filter (fun p => match fst p with Some _ => true | None => false end) (combine (map (fun f => nth i f None) cloud) (map (fun f => nth i f None) convection)).
Lemma shower_members tc tv i n : (i < n)%nat -> forall cloud convection cl cv,
  Forall (fun f => length f = n) cloud -> Forall (fun f => length f = n) convection -> length convection = length cloud ->
  Forall2 (fun a b => threshold_cube tc "<=" a = Ok b) cloud cl -> Forall2 (fun a b => threshold_cube tv ">" a = Ok b) convection cv ->
  let v := flat_map (fun o : option Q => match o with Some x => [x] | None => [] end)
             (map (fun f => nth i f None) (zipw (zipw (lift2 Qmax)) cl (map (map (fun o => match o with Some v => Some v | None => Some 0 end)) cv))) in
  length v = length (unmasked_cloud i cloud convection) /\
  exists k, share_count (fun p => showery tc tv (fst p) (snd p)) (unmasked_cloud i cloud convection) k /\ qsum v == Qn k.
Proof.
  intro Hi. induction cloud as [|a cloud IH]; intros [|b convection] cl cv Fa Fb L A B; try discriminate.
  - inversion A; inversion B; subst. cbn. split; [reflexivity|]. exists 0%nat. split; reflexivity.
  - inversion A as [|? fa ? cl' Ha A']; inversion B as [|? fb ? cv' Hb B']; subst. inversion Fa as [|? ? La Fa']; inversion Fb as [|? ? Lb Fb']; subst.
    destruct (IH convection cl' cv' Fa' Fb' ltac:(cbn in L; lia) A' B') as [IL (k & IK & IS)]. clear IH.
    destruct (threshold_cube_spec tc "<=" LE a eq_refl) as (fa' & Ea & Lfa & Pa). rewrite Ha in Ea. injection Ea as <-.
    destruct (threshold_cube_spec tv ">" GT b eq_refl) as (fb' & Eb & Lfb & Pb). rewrite Hb in Eb. injection Eb as <-.
    specialize (Pa i Hi). specialize (Pb i ltac:(lia)). unfold unmasked_cloud in *.
    cbn [map zipw flat_map combine filter fst].
    rewrite zip_nth by (rewrite ?map_length; lia). rewrite nth_map_lt with (d := None) by lia.
    destruct (nth i a None) as [x|]; destruct (nth i fa None) as [u|]; cbn [option_map oeq] in Pa; try contradiction.
    + assert (W : exists w, (nth i fb None = Some w \/ (nth i fb None = None /\ w = 0)) /\ ((exists z, nth i b None = Some z /\ tv < z) /\ w == 1 \/ (~ (exists z, nth i b None = Some z /\ tv < z)) /\ w == 0)).
      { destruct (nth i b None) as [z|], (nth i fb None) as [w|]; cbn [option_map oeq] in Pb; try contradiction.
        - exists w. split; [auto|]. unfold indicator in Pb. cbn [cmp_fun] in Pb. destruct (Qltb_spec tv z).
          + left. split; [exists z; split; [reflexivity|assumption]|exact Pb].
          + right. split; [intros (z' & E & T); injection E as ->; lra|exact Pb].
        - exists 0. split; [auto|]. right. split; [intros (z' & E & _); discriminate|reflexivity]. }
      destruct W as (w & W & V). assert (E : match nth i fb None with Some v => Some v | None => Some 0 end = Some w) by (destruct W as [->|[-> ->]]; reflexivity).
      rewrite E. cbn [lift2 app length]. split; [f_equal; exact IL|].
      unfold indicator in Pa. cbn [cmp_fun] in Pa. destruct (Qleb_spec x tc) as [C|C].
      * exists (S k). split; [left; split; [left; exists x; auto|exists k; auto]|]. cbn [qsum fold_right]. fold (qsum (flat_map (fun o : option Q => match o with Some x => [x] | None => [] end) (map (fun f => nth i f None) (zipw (zipw (lift2 Qmax)) cl' (map (map (fun o => match o with Some v => Some v | None => Some 0 end)) cv'))))).
        rewrite IS. unfold Qn. rewrite Nat2Z.inj_succ, <- Z.add_1_l, inject_Z_plus. change (inject_Z 1) with 1.
        assert (Qmax u w == 1) as ->; [|reflexivity]. destruct V as [[_ V]|[_ V]]; rewrite Pa, V; reflexivity.
      * destruct V as [[V1 V2]|[V1 V2]].
        -- exists (S k). split; [left; split; [right; exact V1|exists k; auto]|]. cbn [qsum fold_right]. fold (qsum (flat_map (fun o : option Q => match o with Some x => [x] | None => [] end) (map (fun f => nth i f None) (zipw (zipw (lift2 Qmax)) cl' (map (map (fun o => match o with Some v => Some v | None => Some 0 end)) cv'))))).
           rewrite IS. unfold Qn. rewrite Nat2Z.inj_succ, <- Z.add_1_l, inject_Z_plus. change (inject_Z 1) with 1.
           assert (Qmax u w == 1) as ->; [|reflexivity]. rewrite Pa, V2. reflexivity.
        -- exists k. split; [right; split; [|exact IK]|].
           ++ cbn [fst snd]. intros [(c & Ec & Hc)|H]; [injection Ec as <-; lra|exact (V1 H)].
           ++ cbn [qsum fold_right]. fold (qsum (flat_map (fun o : option Q => match o with Some x => [x] | None => [] end) (map (fun f => nth i f None) (zipw (zipw (lift2 Qmax)) cl' (map (map (fun o => match o with Some v => Some v | None => Some 0 end)) cv'))))).
              rewrite IS. assert (Qmax u w == 0) as ->; [|ring]. rewrite Pa, V2. reflexivity.
    + cbn [lift2 app]. split; [exact IL|]. exists k. split; [exact IK|exact IS].
Qed.

(** ** Freezing rain *)
Definition get2 (k j : nat) (f : list (list Q)) : Q := nth j (nth k f []) 0.
Definition ok_member (k m : nat) (x : list (list Q) * list (list Q) * list Q) : Prop := shape2 k m (fst (fst x)) /\ shape2 k m (snd (fst x)) /\ length (snd x) = m.
Lemma shape2_nth K m f k : shape2 K m f -> (k < K)%nat -> length (nth k f []) = m.
Proof. intros [L F] H. rewrite Forall_forall in F. apply F. apply nth_In. lia. Qed.
Lemma zip_forall {A B C} (f : A -> B -> C) (P : C -> Prop) l m : (forall i da db, (i < length l)%nat -> (i < length m)%nat -> P (f (nth i l da) (nth i m db))) -> Forall P (zipw f l m).
Proof.
  revert m. induction l as [|x l IH]; intros [|y m] H; cbn; try constructor.
  - apply (H 0%nat x y); cbn; lia.
  - apply IH. intros i da db HA HB. apply (H (S i) da db); cbn; lia.
Qed.
Lemma add_member_shape K m d acc x : shape2 K m acc -> ok_member K m x -> shape2 K m (add_member d acc x).
Proof.
  destruct x as [[r s] t]. intros A (R & S' & T). cbn [fst snd] in *. unfold add_member. destruct A as [LA FA], R as [LR FR], S' as [LS FS].
  split; [rewrite zipw_length; [exact LA|rewrite combine_length; lia]|]. apply zip_forall. intros i da db Hi Hj. rewrite combine_length in Hj.
  rewrite zipw_length; [rewrite Forall_forall in FA; apply FA; apply nth_In; exact Hi|].
  assert (E : nth i (combine r s) db = (nth i r [], nth i s [])) by (rewrite <- combine_nth by lia; apply nth_indep; rewrite combine_length; lia). rewrite E. cbn [fst snd].
  rewrite (Forall_forall _ acc) in FA. rewrite (FA (nth i acc da)) by (apply nth_In; exact Hi).
  rewrite zipw_length; rewrite zipw_length; rewrite ?(shape2_nth K m) by (try split; auto; lia); auto.
Qed.
Lemma add_member_nth K m d acc x k j : shape2 K m acc -> ok_member K m x -> (k < K)%nat -> (j < m)%nat ->
  get2 k j (add_member d acc x) = get2 k j acc + (get2 k j (fst (fst x)) + get2 k j (snd (fst x))) * nth j (snd x) 0 * (1 / d).
Proof.
  destruct x as [[r s] t]. intros A (R & S' & T) Hk Hj. cbn [fst snd] in *. unfold get2, add_member.
  rewrite zipw_nth with (da := []) (db := ([], [])) by (rewrite ?combine_length; destruct A, R, S'; lia).
  rewrite combine_nth by (destruct R, S'; lia). cbn [fst snd].
  assert (Ea := shape2_nth _ _ _ k A Hk). assert (Er := shape2_nth _ _ _ k R Hk). assert (Es := shape2_nth _ _ _ k S' Hk).
  assert (E1 : length (zipw Qplus (nth k r []) (nth k s [])) = m) by (rewrite zipw_length; lia).
  rewrite zipw_nth with (da := 0) (db := 0) by (rewrite ?zipw_length; lia).
  rewrite zipw_nth with (da := 0) (db := 0) by lia. rewrite zipw_nth with (da := 0) (db := 0) by lia. reflexivity.
Qed.
Lemma fold_members K m d k j : (k < K)%nat -> (j < m)%nat -> forall ms acc, shape2 K m acc -> Forall (ok_member K m) ms ->
  shape2 K m (fold_left (add_member d) ms acc) /\
  get2 k j (fold_left (add_member d) ms acc) == get2 k j acc + qsum (map (fun x => (get2 k j (fst (fst x)) + get2 k j (snd (fst x))) * nth j (snd x) 0) ms) * (1 / d).
Proof.
  intros Hk Hj. induction ms as [|x ms IH]; intros acc A F; cbn [fold_left map qsum fold_right].
  - split; [exact A|ring].
  - inversion F as [|? ? X F']; subst. destruct (IH (add_member d acc x) (add_member_shape K m d acc x A X) F') as [B C]. split; [exact B|].
    rewrite C, (add_member_nth K m) by assumption. fold (qsum (map (fun x => (get2 k j (fst (fst x)) + get2 k j (snd (fst x))) * nth j (snd x) 0) ms)). ring.
Qed.

Lemma sorted_ext l : forall l', StronglySorted Z.lt l -> StronglySorted Z.lt l' -> (forall x, In x l <-> In x l') -> l = l'.
Proof.
  induction l as [|a l IH]; intros [|b l'] A B H.
  - reflexivity.
  - destruct (proj2 (H b)); left; reflexivity.
  - destruct (proj1 (H a)); left; reflexivity.
  - inversion A as [|? ? A' FA]; inversion B as [|? ? B' FB]; subst. rewrite Forall_forall in FA, FB.
    assert (a = b) as <-.
    { destruct (proj1 (H a) (or_introl eq_refl)) as [|Ha]; [auto|]. destruct (proj2 (H b) (or_introl eq_refl)) as [|Hb]; [auto|]. specialize (FA _ Hb). specialize (FB _ Ha). lia. }
    f_equal. apply IH; auto. intro x. split; intro X.
    + destruct (proj1 (H x) (or_intror X)) as [<-|]; [|assumption]. specialize (FA _ X). lia.
    + destruct (proj2 (H x) (or_intror X)) as [<-|]; [|assumption]. specialize (FB _ X). lia.
Qed.
Lemma sorted_filter p l : StronglySorted Z.lt l -> StronglySorted Z.lt (filter p l).
Proof.
  induction 1 as [|a l A IH F]; cbn; [constructor|]. destruct (p a); [|exact IH]. constructor; [exact IH|]. rewrite Forall_forall in *. intros x X. apply filter_In in X. apply F. apply X.
Qed.
Lemma find_first {A} (r : Z) (l : list (Z * A)) a : NoDup (map fst l) -> In (r, a) l -> find (fun p => (fst p =? r)%Z) l = Some (r, a).
Proof.
  induction l as [|[r' a'] l IH]; cbn; [contradiction|]. intros N [E|H].
  - injection E as -> ->. rewrite Z.eqb_refl. reflexivity.
  - inversion N as [|? ? X N']; subst. destruct (Z.eqb_spec r' r) as [->|]; [|apply IH; assumption]. destruct X. apply (in_map fst) in H. exact H.
Qed.
Lemma sorted_nodup l : StronglySorted Z.lt l -> NoDup l.
Proof. induction 1 as [|a l A IH F]; constructor; [|exact IH]. intro H. rewrite Forall_forall in F. specialize (F _ H). lia. Qed.
(** The selected slices are those of the kept realizations, in order. *)
Lemma select_slices {A} (P : A -> Prop) rs c keep : ensemble P rs c -> (forall r, In r keep -> In r rs) -> StronglySorted Z.lt keep ->
  r_realizations (select keep c) = Some keep /\ map Some (r_slices (select keep c)) = map (fun r => field_of r c) keep /\ Forall P (r_slices (select keep c)) /\ length (r_slices (select keep c)) = length keep.
Proof.
  intros (E & L & S' & F) K SK. unfold select, field_of. rewrite E. cbn [r_realizations r_slices].
  assert (KE : filter (fun r => existsb (Z.eqb r) keep) rs = keep).
  { apply sorted_ext; [apply sorted_filter; exact S'|exact SK|]. intro x. rewrite filter_In, existsb_exists. split.
    - intros (_ & y & Y & H). apply Z.eqb_eq in H. subst. exact Y.
    - intro X. split; [apply K; exact X|]. exists x. split; [exact X|apply Z.eqb_refl]. }
  assert (ND := sorted_nodup _ S'). rewrite KE.
  assert (G : forall rs (sl : list A), length sl = length rs -> map fst (filter (fun p => existsb (Z.eqb (fst p)) keep) (combine rs sl)) = filter (fun r => existsb (Z.eqb r) keep) rs).
  { induction rs0 as [|x xs IH]; intros [|y ys] H; cbn in *; try discriminate; [reflexivity|]. destruct (existsb (Z.eqb x) keep); cbn; [f_equal|]; apply IH; lia. }
  specialize (G rs (r_slices c) L). rewrite KE in G.
  split; [reflexivity|]. split; [|split].
  - transitivity (map (fun r => option_map snd (find (fun p => (fst p =? r)%Z) (combine rs (r_slices c)))) (map fst (filter (fun p => existsb (Z.eqb (fst p)) keep) (combine rs (r_slices c)))));
      [|rewrite G; reflexivity].
    rewrite !map_map. apply map_ext_in. intros [r a] X. apply filter_In in X. destruct X as [X _]. cbn [fst snd].
    rewrite (find_first r _ a); [reflexivity| |exact X]. rewrite Interp.map_fst_combine by lia. exact ND.
  - apply Forall_forall. intros a X. apply in_map_iff in X. destruct X as ((r & a') & <- & X). apply filter_In in X. destruct X as [X _]. apply in_combine_r in X. rewrite Forall_forall in F. apply F. exact X.
  - rewrite map_length. apply (f_equal (@length Z)) in G. rewrite map_length in G. exact G.
Qed.

Lemma common_nonempty {A} (l : list A) : l <> [] -> match l with [] => false | _ => true end = true.
Proof. destruct l; [intro H; destruct (H eq_refl)|reflexivity]. Qed.

Lemma zip3_sum K m k j (rain sleet : list (list (list Q))) (temp : list (list Q)) ra sl te keep :
  map Some rain = map (fun r => field_of r ra) keep -> map Some sleet = map (fun r => field_of r sl) keep -> map Some temp = map (fun r => field_of r te) keep ->
  Forall (shape2 K m) rain -> Forall (shape2 K m) sleet -> Forall (fun f => length f = m) temp ->
  Forall (ok_member K m) (combine (combine rain sleet) temp) /\
  map (fun x => (get2 k j (fst (fst x)) + get2 k j (snd (fst x))) * nth j (snd x) 0) (combine (combine rain sleet) temp) = map (member_probability ra sl te k j) keep.
Proof.
  revert rain sleet temp. induction keep as [|r keep IH]; intros [|a rain] [|b sleet] [|c temp] A B C FA FB FC; try discriminate.
  - split; constructor.
  - cbn [map] in A, B, C. injection A as A1 A2. injection B as B1 B2. injection C as C1 C2. inversion FA; inversion FB; inversion FC; subst.
    destruct (IH rain sleet temp A2 B2 C2) as [F E]; try assumption. cbn [combine map]. split.
    + constructor; [repeat split; cbn; try apply H1; try apply H5; assumption|exact F].
    + f_equal; [|exact E]. unfold member_probability. rewrite <- A1, <- B1, <- C1. reflexivity.
Qed.

Theorem freezing_value K m ra sl te a b c : ensemble (shape2 K m) a ra -> ensemble (shape2 K m) b sl -> ensemble (fun f => length f = m) c te ->
  let common := filter (fun r => (existsb (Z.eqb r) b && existsb (Z.eqb r) c)%bool) a in
  (common = [] -> freezing_rain ra sl te = Err ValueError) /\
  (common <> [] -> exists out, freezing_rain ra sl te = Ok out /\ shape2 K m out /\
    forall k j, (k < K)%nat -> (j < m)%nat -> nth j (nth k out []) 0 == qsum (map (member_probability ra sl te k j) common) / Qlen a).
Proof.
  intros A B C common. unfold freezing_rain, common_realizations. pose proof A as (EA & LA & SA & FA). pose proof B as (EB & LB & SB & FB). pose proof C as (EC & LC & SC & FC).
  rewrite EA, EB, EC. fold common. split; intro H.
  - rewrite H. reflexivity.
  - assert (SK : StronglySorted Z.lt common) by (apply sorted_filter; exact SA).
    assert (IN : forall r, In r common -> In r a /\ In r b /\ In r c).
    { intros r R. unfold common in R. apply filter_In in R. destruct R as [R1 R2]. apply Bool.andb_true_iff in R2. destruct R2 as [R2 R3].
      apply existsb_exists in R2, R3. destruct R2 as (x & X & Ex), R3 as (y & Y & Ey). apply Z.eqb_eq in Ex, Ey. subst. auto. }
    destruct (select_slices _ a ra common A) as (Ra & Ma & Pa & La); [intros; apply IN; assumption|exact SK|].
    destruct (select_slices _ b sl common B) as (Rb & Mb & Pb & Lb); [intros; apply IN; assumption|exact SK|].
    destruct (select_slices _ c te common C) as (Rc & Mc & Pc & Lc); [intros; apply IN; assumption|exact SK|].
    destruct common as [|r0 rest] eqn:EK; [destruct (H eq_refl)|]. rewrite <- EK in *. cbn [bind].
    rewrite Rb, Rc. destruct (r_slices (select common sl)) as [|first more] eqn:Es; [rewrite EK in Lb; discriminate|]. rewrite <- Es in *. eexists; split; [reflexivity|].
    assert (SF : shape2 K m (map (map (fun _ => 0)) first)).
    { assert (X : shape2 K m first) by (rewrite Es in Pb; inversion Pb; assumption). destruct X as [X Y]. split; [rewrite map_length; exact X|].
      apply Forall_map. eapply Forall_impl; [|exact Y]. intros g G. cbn. rewrite map_length. exact G. }
    assert (G : forall k j, Forall (ok_member K m) (combine (combine (r_slices (select common ra)) (r_slices (select common sl))) (r_slices (select common te))) /\ _)
      by (intros k j; exact (zip3_sum K m k j _ _ _ ra sl te common Ma Mb Mc Pa Pb Pc)).
    split.
    { unfold freezing_sum. destruct (G 0%nat 0%nat) as [G1 _]. clear - G1 SF. revert SF G1. generalize (map (map (fun _ : Q => 0)) first).
      generalize (combine (combine (r_slices (select common ra)) (r_slices (select common sl))) (r_slices (select common te))).
      induction l as [|x l IH]; intros acc A F; cbn [fold_left]; [exact A|]. inversion F; subst. apply IH; [apply add_member_shape; assumption|assumption]. }
    intros k j Hk Hj. destruct (G k j) as [G1 G2]. unfold freezing_sum.
    destruct (fold_members K m (Qn (length a)) k j Hk Hj _ _ SF G1) as [_ V]. unfold get2 in V at 1. rewrite V, G2.
    assert (Z0 : get2 k j (map (map (fun _ => 0)) first) == 0).
    { unfold get2. assert (X : shape2 K m first) by (rewrite Es in Pb; inversion Pb; assumption). destruct X as [X Y].
      rewrite nth_map_lt with (d := []) by lia. rewrite nth_map_lt with (d := 0); [reflexivity|]. rewrite Forall_forall in Y. rewrite Y; [exact Hj|apply nth_In; lia]. }
    rewrite Z0. unfold Qlen, Qn, Qdiv. ring.
Qed.
