(** C105: the wet bulb temperature. *)
From Coq Require Import QArith Qabs List Bool Arith Lia Lqa.
From Verif Require Import Base Model_WetBulb.
Import ListNotations.
Local Open Scope Q_scope.

(** ** The specification: one point at a time *)
(** Iterate from the temperature until the next increment is no greater than the precision, at most [n] times; the last small increment is not added. *)
Section point.
  Variables (step : Q -> Q) (precision : Q).
  Fixpoint iterate (n : nat) (t : Q) : Q := match n with O => t | S k => if Qlt_le_dec precision (Qabs (step t)) then iterate k (t + step t) else t end.
End point.
Definition point_heat (sat : Q -> Q -> Q) (p r t : Q) : Q := (1 - r * sat t p) * 1005 + r * sat t p * 1850.
Definition point_latent (t : Q) : Q := 2501000 - 2340 * (t - (27315 # 100)).
Definition point_enthalpy (sat : Q -> Q -> Q) (p r t0 q t : Q) : Q := point_latent t0 * q + point_heat sat p r t0 * t.
Definition point_gradient (sat : Q -> Q -> Q) (p r t0 t : Q) : Q := sat t p * point_latent t0 * point_latent t0 / ((4616 # 10) * t * t) + point_heat sat p r t0.
Definition point_step (sat : Q -> Q -> Q) (p r t0 t : Q) : Q :=
  (point_enthalpy sat p r t0 (r * sat t0 p) t0 - point_enthalpy sat p r t0 (sat t p) t) / point_gradient sat p r t0 t.

(** ** Selecting and scattering *)
Lemma select_map {A B} (f : A -> B) m l : select m (map f l) = map f (select m l).
Proof. revert l. induction m as [|b m IH]; intros [|a l]; try reflexivity. cbn [select map]. destruct b; cbn [map]; now rewrite IH. Qed.
Lemma select_filter {A} (f : A -> bool) l : select (map f l) l = filter f l.
Proof. induction l as [|a l IH]; [reflexivity|]. cbn [select map filter]. destruct (f a); now rewrite IH. Qed.
Lemma add_at_length l i v : length (add_at l i v) = length l.
Proof. revert i. induction l as [|a l IH]; intros [|i]; try reflexivity. cbn. now rewrite IH. Qed.
Lemma add_at_nth l i v k : nth k (add_at l i v) 0 = if ((k =? i)%nat && (k <? length l)%nat)%bool then nth k l 0 + v else nth k l 0.
Proof.
  revert i k. induction l as [|a l IH]; intros i k. { cbn [add_at length]. destruct k; now rewrite andb_false_r. }
  destruct i as [|i], k as [|k]; try reflexivity. cbn [add_at nth length]. rewrite IH. change (S k =? S i)%nat with (k =? i)%nat. change (S k <? S (length l))%nat with (k <? length l)%nat. reflexivity.
Qed.
Lemma add_all_length l idx vs : length (add_all l idx vs) = length l.
Proof. revert l vs. induction idx as [|i idx IH]; intros l [|v vs]; try reflexivity. cbn [add_all]. now rewrite IH, add_at_length. Qed.
Lemma add_all_out l idx vs k : ~ In k idx -> nth k (add_all l idx vs) 0 = nth k l 0.
Proof.
  revert l vs. induction idx as [|i idx IH]; intros l [|v vs] N; try reflexivity. cbn [add_all]. rewrite IH by (intro; apply N; now right). rewrite add_at_nth. destruct (Nat.eqb_spec k i) as [->|]; [elim N; now left|reflexivity].
Qed.
Lemma add_all_in l idx (f : nat -> Q) k : NoDup idx -> In k idx -> (k < length l)%nat -> nth k (add_all l idx (map f idx)) 0 = nth k l 0 + f k.
Proof.
  revert l. induction idx as [|i idx IH]; intros l Nd I L; [contradiction|]. inversion_clear Nd. cbn [map add_all]. destruct (Nat.eq_dec i k) as [->|Ne].
  - rewrite add_all_out by assumption. rewrite add_at_nth, Nat.eqb_refl. destruct (Nat.ltb_spec k (length l)); [reflexivity|lia].
  - destruct I as [E|I]; [contradiction|]. rewrite IH; [|assumption..|now rewrite add_at_length]. rewrite add_at_nth. destruct (Nat.eqb_spec k i); [congruence|reflexivity].
Qed.
Lemma deltas_map sat (T P C L E : nat -> Q) idx : deltas sat (map T idx) (map P idx) (map C idx) (map L idx) (map E idx) = map (fun i => delta sat (T i) (P i) (C i) (L i) (E i)) idx.
Proof. induction idx as [|i idx IH]; [reflexivity|]. cbn [map deltas]. now rewrite IH. Qed.
Lemma list_as_map (l : list Q) : l = map (fun i => nth i l 0) (seq 0 (length l)).
Proof. apply (nth_ext _ _ 0 0); [now rewrite map_length, seq_length|]. intros n Hn. now rewrite nth_map_seq by exact Hn. Qed.
Lemma decide_Qltb x y : Qltb x y = if Qlt_le_dec x y then true else false.
Proof. destruct (Qltb_spec x y), (Qlt_le_dec x y); try reflexivity; lra. Qed.

(** ** The loop works point by point *)
Section whole.
  Variables (sat : Q -> Q -> Q) (precision : Q) (P C L E : nat -> Q).
  Let step (i : nat) (t : Q) : Q := delta sat t (P i) (C i) (L i) (E i).
  Definition after (n : nat) (wbt : list Q) (idx : list nat) (res : list Q) : Prop :=
    length res = length wbt /\ forall k, (k < length wbt)%nat -> nth k res 0 = if in_dec Nat.eq_dec k idx then iterate (step k) precision n (nth k wbt 0) else nth k wbt 0.
  Lemma loop_after n : forall first wbt idx prev, NoDup idx -> (forall k, In k idx -> (k < length wbt)%nat) ->
    (first = true -> idx = seq 0 (length wbt) /\ prev = idx) -> forall mask, (first = false -> idx = select mask prev) ->
    after n wbt idx (loop sat precision n first wbt idx mask (map P prev) (map C prev) (map L prev) (map E prev)).
  Proof.
    induction n as [|n IH]; intros first wbt idx prev Nd Ir F mask M.
    - cbn [loop]. split; [reflexivity|]. intros k Lk. destruct (in_dec Nat.eq_dec k idx); reflexivity.
    - cbn [loop]. destruct (Nat.eqb_spec (length idx) 0) as [Z|Nz].
      { destruct idx; [|discriminate]. split; [reflexivity|]. intros k Lk. destruct (in_dec Nat.eq_dec k []) as [[]|]; reflexivity. }
      set (ds := deltas sat _ _ _ _ _). set (f := fun i => step i (nth i wbt 0)).
      assert (S : forall G : nat -> Q, (if first then map G prev else select mask (map G prev)) = map G idx). { intro G. destruct first; [now destruct (F eq_refl) as [_ ->]|]. now rewrite select_map, <- M. }
      assert (T : (if first then wbt else take 0 wbt idx) = map (fun i => nth i wbt 0) idx). { destruct first; [|reflexivity]. destruct (F eq_refl) as [-> _]. apply list_as_map. }
      assert (D : ds = map f idx). { unfold ds. rewrite T, !S. apply deltas_map. }
      assert (Mk : map (fun d => Qltb precision (Qabs d)) ds = map (fun i => Qltb precision (Qabs (f i))) idx). { rewrite D, map_map. reflexivity. }
      rewrite Mk, !S. rewrite D, select_map, !select_filter. set (idx' := filter _ idx).
      assert (Nd' : NoDup idx') by now apply NoDup_filter. assert (Ir' : forall k, In k idx' -> (k < length wbt)%nat) by (intros k Ik; apply filter_In in Ik; now apply Ir).
      destruct (IH false (add_all wbt idx' (map f idx')) idx' idx Nd') with (mask := map (fun i => Qltb precision (Qabs (f i))) idx) as [Ln Vn].
      { intros k Ik. rewrite add_all_length. now apply Ir'. } { discriminate. } { intros _. now rewrite select_filter. }
      rewrite add_all_length in Ln, Vn. split; [exact Ln|]. intros k Lk. rewrite (Vn k Lk). cbn [iterate]. destruct (in_dec Nat.eq_dec k idx') as [I'|N'].
      + rewrite add_all_in by (assumption || now apply Ir'). apply filter_In in I' as [I' B]. destruct (in_dec Nat.eq_dec k idx) as [_|N]; [|contradiction]. rewrite decide_Qltb in B. unfold f in B. destruct (Qlt_le_dec precision (Qabs (step k (nth k wbt 0)))); [reflexivity|discriminate].
      + rewrite add_all_out by exact N'. destruct (in_dec Nat.eq_dec k idx) as [Ik|N]; [|reflexivity]. assert (B : Qltb precision (Qabs (f k)) = false). { destruct (Qltb precision (Qabs (f k))) eqn:B; [|reflexivity]. elim N'. apply filter_In. now split. } rewrite decide_Qltb in B. unfold f in B. destruct (Qlt_le_dec precision (Qabs (step k (nth k wbt 0)))); [discriminate|reflexivity].
  Qed.
End whole.

Lemma map2_length {A B C} (f : A -> B -> C) l m : length (map2 f l m) = Nat.min (length l) (length m).
Proof. revert m. induction l as [|a l IH]; intros [|b m]; try reflexivity. cbn [map2 length]. now rewrite IH. Qed.
Lemma map2_nth {A B C} (f : A -> B -> C) l m a b c k : (k < length l)%nat -> (k < length m)%nat -> nth k (map2 f l m) c = f (nth k l a) (nth k m b).
Proof. revert m k. induction l as [|x l IH]; intros [|y m] [|k] Hl Hm; cbn in Hl, Hm; try lia; [reflexivity|]. cbn [map2 nth]. apply IH; lia. Qed.
Lemma nth_combine {A B} (l : list A) (m : list B) a b k : length l = length m -> nth k (combine l m) (a, b) = (nth k l a, nth k m b).
Proof. intro E. now apply combine_nth. Qed.
(** C105: the arrays are worked on together, with shrinking selections; the result at each point is what that point alone would give. *)
Lemma delta_point (sat : Q -> Q -> Q) p r t0 t : delta sat t p (specific_heat (r * sat t0 p)) (latent t0) (enthalpy (r * sat t0 p) (specific_heat (r * sat t0 p)) (latent t0) t0) == point_step sat p r t0 t.
Proof.
  unfold delta, point_step. cbv zeta. assert (C : specific_heat (r * sat t0 p) == point_heat sat p r t0). { unfold specific_heat, point_heat, cp_dry, cp_vapour. ring. } assert (Lt : latent t0 == point_latent t0). { unfold latent, point_latent, lh_slope, lh_water, kelvin. ring. }
  unfold gradient, point_gradient, enthalpy, point_enthalpy. rewrite C, Lt. reflexivity.
Qed.
Lemma iterate_ext (f g : Q -> Q) precision : (forall t, f t == g t) -> (forall t u, t == u -> g t == g u) -> forall n t u, t == u -> iterate f precision n t == iterate g precision n u.
Proof.
  intros E Pr. induction n as [|n IH]; intros t u Et; [exact Et|]. cbn [iterate]. assert (S : f t == g u) by (rewrite E; now apply Pr). destruct (Qlt_le_dec precision (Qabs (f t))) as [A|A], (Qlt_le_dec precision (Qabs (g u))) as [B|B]; rewrite S in A; try lra. apply IH. now apply Qplus_comp.
Qed.
Definition respects (sat : Q -> Q -> Q) : Prop := forall t u p, t == u -> sat t p == sat u p.
Lemma point_step_ext sat p r t0 : respects sat -> forall t u, t == u -> point_step sat p r t0 t == point_step sat p r t0 u.
Proof. intros Rs t u E. pose proof (Rs t u p E) as S. unfold point_step, point_gradient, point_enthalpy. now rewrite S, E. Qed.
Theorem C105_pointwise sat precision ps rs ts : length ps = length ts -> length rs = length ts -> respects sat ->
  length (wet_bulb sat precision ps rs ts) = length ts /\
  forall k, (k < length ts)%nat -> let p := nth k ps 0 in let r := nth k rs 0 in let t := nth k ts 0 in nth k (wet_bulb sat precision ps rs ts) 0 == iterate (point_step sat p r t) precision 20 t.
Proof.
  intros Ep Er Rs. unfold wet_bulb. cbv zeta. set (qs := map2 Qmult rs (map2 sat ts ps)). assert (Lq : length qs = length ts) by (unfold qs; rewrite !map2_length; lia). set (cs := map specific_heat qs). assert (Lc : length cs = length ts) by (unfold cs; now rewrite map_length). set (es := map2 _ (combine qs cs) ts). assert (Le : length es = length ts) by (unfold es; rewrite map2_length, combine_length; lia).
  set (N := length ts) in *. assert (Ll : length (map latent ts) = N) by now rewrite map_length. pose proof (list_as_map ps) as Mp. pose proof (list_as_map cs) as Mc. pose proof (list_as_map (map latent ts)) as Ml. pose proof (list_as_map es) as Me. rewrite Ep in Mp. rewrite Lc in Mc. rewrite Ll in Ml. rewrite Le in Me.
  pose proof (loop_after sat precision (fun i => nth i ps 0) (fun i => nth i cs 0) (fun i => nth i (map latent ts) 0) (fun i => nth i es 0) maximum_iterations true ts (seq 0 N) (seq 0 N) (seq_NoDup _ _)) as A.
  specialize (A ltac:(intros k Ik; apply in_seq in Ik; lia) ltac:(intros _; split; reflexivity) [] ltac:(discriminate)). rewrite <- Mp, <- Mc, <- Ml, <- Me in A. destruct A as [Ln V]. fold N in Ln, V. split; [exact Ln|]. intros k Lk. cbv zeta. rewrite (V k Lk). destruct (in_dec Nat.eq_dec k (seq 0 N)) as [_|Nn]; [|elim Nn; apply in_seq; lia].
  assert (Eq : nth k qs 0 = nth k rs 0 * sat (nth k ts 0) (nth k ps 0)). { unfold qs. rewrite (map2_nth _ _ _ 0 0) by (rewrite ?map2_length; lia). now rewrite (map2_nth _ _ _ 0 0) by lia. }
  assert (Ec : nth k cs 0 = specific_heat (nth k qs 0)) by (unfold cs; apply nth_map_lt; lia).
  assert (Ee : nth k es 0 = enthalpy (nth k qs 0) (nth k cs 0) (latent (nth k ts 0)) (nth k ts 0)). { unfold es. rewrite (map2_nth _ _ _ (0, 0) 0) by (rewrite ?combine_length; lia). rewrite nth_combine by lia. reflexivity. }
  assert (El : nth k (map latent ts) 0 = latent (nth k ts 0)) by (apply nth_map_lt; lia).
  apply iterate_ext; [| |reflexivity].
  - intro t. rewrite Ee, El, Ec, Eq. apply delta_point.
  - now apply point_step_ext.
Qed.

(** ** What a point gives *)
Fixpoint guess (step : Q -> Q) (n : nat) (t : Q) : Q := match n with O => t | S k => guess step k t + step (guess step k t) end.
Lemma guess_shift step n t : guess step n (t + step t) = guess step (S n) t.
Proof. induction n as [|n IH]; [reflexivity|]. cbn [guess]. rewrite IH. reflexivity. Qed.
Lemma iterate_stops step precision n t : exists m, (m <= n)%nat /\ iterate step precision n t = guess step m t /\ (forall k, (k < m)%nat -> precision < Qabs (step (guess step k t))) /\ ((m < n)%nat -> Qabs (step (guess step m t)) <= precision).
Proof.
  revert t. induction n as [|n IH]; intro t. { exists 0%nat. repeat split; try lia; reflexivity. } cbn [iterate]. destruct (Qlt_le_dec precision (Qabs (step t))) as [L|L].
  - destruct (IH (t + step t)) as (m & Lm & Em & Bm & Sm). exists (S m). rewrite guess_shift in Em. repeat split; [lia|exact Em| |].
    + intros [|k] Lk; [exact L|]. rewrite <- guess_shift. apply Bm. lia.
    + intro Lt. rewrite <- guess_shift. apply Sm. lia.
  - exists 0%nat. repeat split; try lia. intros _. exact L.
Qed.
(** Either the enthalpy of the result is that of the air to within precision times the gradient, or twenty increments, each more than the precision, were made and the last value is returned. *)
Theorem C105_stops sat precision ps rs ts k : length ps = length ts -> length rs = length ts -> respects sat -> (k < length ts)%nat ->
  let p := nth k ps 0 in let r := nth k rs 0 in let t := nth k ts 0 in let w := nth k (wet_bulb sat precision ps rs ts) 0 in
  0 < point_gradient sat p r t w ->
  Qabs (point_enthalpy sat p r t (r * sat t p) t - point_enthalpy sat p r t (sat w p) w) <= precision * point_gradient sat p r t w \/
  (w == guess (point_step sat p r t) 20 t /\ forall n, (n < 20)%nat -> precision < Qabs (point_step sat p r t (guess (point_step sat p r t) n t))).
Proof.
  intros Ep Er Rs Lk p r t w G. pose proof (proj2 (C105_pointwise sat precision ps rs ts Ep Er Rs) k Lk) as W. cbv zeta in W. fold p r t in W. fold w in W. destruct (iterate_stops (point_step sat p r t) precision 20 t) as (m & Lm & Em & Bm & Sm). rewrite Em in W. destruct (Nat.eq_dec m 20) as [->|Ne]; [right; split; assumption|left].
  assert (S : Qabs (point_step sat p r t w) <= precision). { rewrite (point_step_ext sat p r t Rs _ _ W). apply Sm. lia. }
  set (g := point_gradient sat p r t w) in *. set (d := point_enthalpy sat p r t (r * sat t p) t - point_enthalpy sat p r t (sat w p) w). assert (E : d == point_step sat p r t w * g). { unfold point_step. fold d g. field. lra. } rewrite E, Qabs_Qmult, (Qabs_pos g) by lra. apply Qmult_le_compat_r; lra.
Qed.
Lemma iterate_still step precision n t : Qabs (step t) <= precision -> iterate step precision n t = t.
Proof. intro L. destruct n as [|n]; [reflexivity|]. cbn [iterate]. destruct (Qlt_le_dec precision (Qabs (step t))); [lra|reflexivity]. Qed.
(** Saturated air keeps its temperature. *)
Theorem C105_saturated sat precision ps rs ts k : length ps = length ts -> length rs = length ts -> respects sat -> (k < length ts)%nat -> 0 <= precision -> nth k rs 0 == 1 -> nth k (wet_bulb sat precision ps rs ts) 0 == nth k ts 0.
Proof.
  intros Ep Er Rs Lk P One. rewrite (proj2 (C105_pointwise sat precision ps rs ts Ep Er Rs) k Lk). cbv zeta. set (p := nth k ps 0). set (r := nth k rs 0) in *. set (t := nth k ts 0). assert (Z : point_step sat p r t t == 0). { unfold point_step, point_enthalpy. generalize (point_heat sat p r t) (point_gradient sat p r t t). intros c g. rewrite One. unfold Qdiv. ring. } rewrite (iterate_still (point_step sat p r t) precision 20 t); [reflexivity|]. rewrite Z. exact P.
Qed.
(** Where the enthalpy grows no faster than the gradient says, the wet bulb temperature lies between the temperature at which the enthalpies agree exactly and the air's. *)
Lemma guess_bracket step w t : w <= t -> (forall u, w <= u -> u <= t -> w - u <= step u <= 0) -> forall n, w <= guess step n t <= t.
Proof. intros L H. induction n as [|n IH]; [split; [exact L|apply Qle_refl]|]. cbn [guess]. destruct (H _ (proj1 IH) (proj2 IH)). split; lra. Qed.
Theorem C105_between sat precision ps rs ts k w0 : length ps = length ts -> length rs = length ts -> respects sat -> (k < length ts)%nat ->
  let p := nth k ps 0 in let r := nth k rs 0 in let t := nth k ts 0 in let w := nth k (wet_bulb sat precision ps rs ts) 0 in
  w0 <= t -> point_enthalpy sat p r t (sat w0 p) w0 == point_enthalpy sat p r t (r * sat t p) t ->
  (forall u, w0 <= u -> u <= t -> 0 < point_gradient sat p r t u /\ 0 <= point_enthalpy sat p r t (sat u p) u - point_enthalpy sat p r t (sat w0 p) w0 <= point_gradient sat p r t u * (u - w0)) ->
  w0 <= w <= t.
Proof.
  intros Ep Er Rs Lk p r t w L0 E0 H. pose proof (proj2 (C105_pointwise sat precision ps rs ts Ep Er Rs) k Lk) as W. cbv zeta in W. fold p r t in W. fold w in W. destruct (iterate_stops (point_step sat p r t) precision 20 t) as (m & _ & Em & _ & _). rewrite W, Em. apply guess_bracket; [exact L0|]. intros u Lu Ru. destruct (H u Lu Ru) as (G & D1 & D2). unfold point_step. rewrite <- E0. set (g := point_gradient sat p r t u) in *. set (a := point_enthalpy sat p r t (sat w0 p) w0) in *. set (b := point_enthalpy sat p r t (sat u p) u) in *. clearbody a b g. split.
  - apply Qle_shift_div_l; [exact G|]. lra.
  - apply Qle_shift_div_r; [exact G|]. lra.
Qed.

(** ** Levels *)
Lemma zip3_length {A} (a b c : list A) : length (zip3 a b c) = Nat.min (length a) (Nat.min (length b) (length c)).
Proof. revert b c. induction a as [|x a IH]; intros [|y b] [|z c]; try reflexivity. cbn [zip3 length]. now rewrite IH. Qed.
Lemma zip3_nth {A} (a b c : list A) d k : (k < length a)%nat -> (k < length b)%nat -> (k < length c)%nat -> nth k (zip3 a b c) (d, d, d) = (nth k a d, nth k b d, nth k c d).
Proof. revert b c k. induction a as [|x a IH]; intros [|y b] [|z c] [|k] A1 B1 C1; cbn in A1, B1, C1; try lia; [reflexivity|]. cbn [zip3 nth]. apply IH; lia. Qed.
(** Three cubes on levels: each level of the result is made from that level of each, as many levels as the cube with the fewest has. *)
Theorem C105_levels sat precision t r p : lname t = lname r -> lname r = lname p -> exists out, wet_bulb_levels sat precision (Levels t) (Levels r) (Levels p) = Ok out /\
  length out = Nat.min (length (fields t)) (Nat.min (length (fields r)) (length (fields p))) /\
  forall k, (k < length out)%nat -> nth k out [] = wet_bulb sat precision (nth k (fields p) []) (nth k (fields r) []) (nth k (fields t) []).
Proof.
  intros Et Ep. unfold wet_bulb_levels, slice_inputs. cbn [has_vertical andb dim_name app]. rewrite Et, Ep, String.eqb_refl. cbn [andb bind levels_of]. eexists. split; [reflexivity|]. rewrite map_length, zip3_length. split; [reflexivity|]. intros k Lk. rewrite (nth_map_lt _ _ _ ([], [], [])) by (rewrite zip3_length; lia). rewrite zip3_nth by lia. reflexivity.
Qed.
(** Level coordinates of different names, or levels in only some of three cubes that all have a vertical coordinate, are refused. *)
Theorem C105_levels_refused sat precision t r p : has_vertical t = true -> has_vertical r = true -> has_vertical p = true ->
  (exists a, In a [t; r; p] /\ exists q, a = Levels q) -> (forall n, ~ (exists a b c, t = Levels a /\ r = Levels b /\ p = Levels c /\ lname a = n /\ lname b = n /\ lname c = n)) -> wet_bulb_levels sat precision t r p = Err ValueError.
Proof.
  intros Ht Hr Hp (a & Ia & q & Ea) N. unfold wet_bulb_levels, slice_inputs. rewrite Ht, Hr, Hp. cbn [andb]. destruct t as [?|ft|lt], r as [?|fr|lr], p as [?|fp|lp]; try discriminate; cbn [dim_name app]; try reflexivity.
  - destruct Ia as [<-|[<-|[<-|[]]]]; discriminate.
  - destruct (String.eqb_spec (lname lt) (lname lr)) as [E1|]; [|reflexivity]. destruct (String.eqb_spec (lname lr) (lname lp)) as [E2|]; [|reflexivity]. elim (N (lname lp)). exists lt, lr, lp. repeat split; congruence.
Qed.
(** But the values of the levels are not compared: levels at different heights are used together without a word, and levels beyond the shortest cube are dropped. *)
Theorem C105_level_values_refuted sat precision : ~ (forall t r p out, wet_bulb_levels sat precision (Levels t) (Levels r) (Levels p) = Ok out -> lvalues t = lvalues r /\ lvalues r = lvalues p /\ length out = length (lvalues t)).
Proof.
  intro H. specialize (H {| lname := "height"; lvalues := [5; 10]; fields := [[280]; [279]] |} {| lname := "height"; lvalues := [5; 10]; fields := [[1]; [1]] |} {| lname := "height"; lvalues := [10]; fields := [[100000]] |} _ eq_refl). destruct H as (_ & H & _). discriminate.
Qed.
(** For instance with a humidity that does not depend on the temperature, where the answer is known. *)
Theorem C105_constant_humidity q precision ps rs ts k : 0 <= q <= 1 -> length ps = length ts -> length rs = length ts -> (k < length ts)%nat ->
  let r := nth k rs 0 in let t := nth k ts 0 in 0 <= r <= 1 -> t <= 1000 ->
  t - point_latent t * q * (1 - r) / ((1 - r * q) * 1005 + r * q * 1850) <= nth k (wet_bulb (fun _ _ => q) precision ps rs ts) 0 <= t.
Proof.
  intros Bq Ep Er Lk r t Br Bt. assert (Bh : 0 <= r * q <= 1) by (split; [apply Qmult_le_0_compat; lra|nra]). set (c := (1 - r * q) * 1005 + r * q * 1850). assert (Pc : 0 < c) by (unfold c; lra). assert (Pl : 0 <= point_latent t) by (unfold point_latent; lra).
  assert (Pn : 0 <= point_latent t * q * (1 - r)) by (apply Qmult_le_0_compat; [apply Qmult_le_0_compat; lra|lra]). assert (Pd : 0 <= point_latent t * q * (1 - r) / c) by (apply Qle_shift_div_l; [exact Pc|lra]).
  apply (C105_between (fun _ _ => q) precision ps rs ts k); try assumption.
  - intros ? ? ? _. reflexivity.
  - fold t. lra.
  - fold r t. unfold point_enthalpy. change (point_heat (fun _ _ => q) (nth k ps 0) r t) with c. field. lra.
  - fold r t. intros u Lu Ru. unfold point_enthalpy, point_gradient. change (point_heat (fun _ _ => q) (nth k ps 0) r t) with c. set (w0 := t - _ / c) in *. assert (Pu : 0 <= q * point_latent t * point_latent t / ((4616 # 10) * u * u)). { unfold Qdiv. apply Qmult_le_0_compat; [apply Qmult_le_0_compat; [apply Qmult_le_0_compat|]; lra|]. apply Qinv_le_0_compat. nra. }
    split; [lra|]. setoid_replace (point_latent t * q + c * u - (point_latent t * q + c * w0)) with (c * (u - w0)) by ring. split; [apply Qmult_le_0_compat; lra|]. apply Qmult_le_compat_r; lra.
Qed.
(** The hypotheses met: a humidity that does not depend on the temperature, half saturated air, freezing point. *)
Example C105_case : wet_bulb (fun _ _ => 1 # 100) 5 [100000; 90000] [1 # 2; 1] [27315 # 100; 280] = [27315 # 100; 280] /\
  (let w := nth 0 (wet_bulb (fun _ _ => 1 # 100) 3 [100000; 90000] [1 # 2; 1] [27315 # 100; 280]) 0 in (26870 # 100) <= w <= (26880 # 100)) /\
  nth 1 (wet_bulb (fun _ _ => 1 # 100) 3 [100000; 90000] [1 # 2; 1] [27315 # 100; 280]) 0 = 280.
Proof. vm_compute. repeat split; discriminate. Qed.

Print Assumptions C105_pointwise.
Print Assumptions C105_stops.
Print Assumptions C105_saturated.
Print Assumptions C105_between.
Print Assumptions C105_levels.
Print Assumptions C105_levels_refused.
Print Assumptions C105_level_values_refuted.
Print Assumptions C105_constant_humidity.
