From Verif Require Import Base Interp Model_Reliability Spec_Reliability.
From Coq Require Import Qround.

(** * Slots *)
Lemma ssr_le l x : (searchsorted_right l x <= length l)%nat.
Proof. induction l; simpl; [lia|]. destruct (_ <=? _); lia. Qed.
Lemma ssr_below l x i : (i < searchsorted_right l x)%nat -> nth i l 0 <= x.
Proof.
  revert i. induction l as [|y l IH]; intros i H; simpl in H; [lia|]. destruct (Qleb_spec y x); [|lia]. destruct i; simpl; [assumption|]. apply IH. lia.
Qed.
Lemma ssr_above l x : (searchsorted_right l x < length l)%nat -> x < nth (searchsorted_right l x) l 0.
Proof. induction l as [|y l IH]; simpl; [lia|]. destruct (Qleb_spec y x) as [A|A]; intro H; simpl; [apply IH; lia|assumption]. Qed.
Lemma slot_falls edges b f : qssorted edges -> (b < length edges - 1)%nat -> (b =? slot edges f)%nat = falls_in edges b f.
Proof.
  intros HS Hb. unfold slot, falls_in. destruct f as [p|]; [|apply Nat.eqb_neq; lia].
  pose proof (ssr_le edges p) as HL. pose proof (ssr_below edges p) as HB. pose proof (ssr_above edges p) as HA. set (k := searchsorted_right edges p) in *.
  destruct (Qleb_spec (nth b edges 0) p), (Qltb_spec p (nth (S b) edges 0)); cbn [andb].
  - assert (k = S b).
    { destruct (lt_eq_lt_dec k (S b)) as [[L|E]|L]; [|exact E|].
      - exfalso. specialize (HA ltac:(lia)). assert (nth k edges 0 <= nth b edges 0) by (apply qsorted_nth; [apply qssorted_qsorted; exact HS|lia]). lra.
      - exfalso. specialize (HB (S b) L). lra. }
    rewrite H1. apply Nat.eqb_refl.
  - apply Nat.eqb_neq. destruct k as [|k]; [lia|]. intros ->. destruct (Nat.eq_dec (S k) (length edges)); [lia|]. specialize (HA ltac:(lia)). lra.
  - apply Nat.eqb_neq. destruct k as [|k]; [lia|]. intros ->. specialize (HB k ltac:(lia)). lra.
  - apply Nat.eqb_neq. destruct k as [|k]; [lia|]. intros ->. specialize (HB k ltac:(lia)). lra.
Qed.
Lemma falls_unique edges b b' f : qssorted edges -> (b < length edges - 1)%nat -> (b' < length edges - 1)%nat -> falls_in edges b f = true -> falls_in edges b' f = true -> b = b'.
Proof.
  intros HS H1 H2 F1 F2. rewrite <- slot_falls in F1 by assumption. rewrite <- slot_falls in F2 by assumption.
  apply Nat.eqb_eq in F1. apply Nat.eqb_eq in F2. congruence.
Qed.
Lemma falls_exists edges p : qssorted edges -> (1 < length edges)%nat -> nth 0 edges 0 <= p -> p < nth (length edges - 1) edges 0 ->
  exists b, (b < length edges - 1)%nat /\ falls_in edges b (Some p) = true /\ slot edges (Some p) = b.
Proof.
  intros HS HL H0 H1. exists (slot edges (Some p)).
  assert (HB : (slot edges (Some p) < length edges - 1)%nat).
  { unfold slot. pose proof (ssr_le edges p) as HE. pose proof (ssr_below edges p) as HB. pose proof (ssr_above edges p) as HA. set (k := searchsorted_right edges p) in *.
    destruct k as [|k].
    - exfalso. specialize (HA ltac:(lia)). lra.
    - destruct (Nat.eq_dec (S k) (length edges)) as [E|E]; [|lia]. specialize (HB k ltac:(lia)). replace (length edges - 1)%nat with k in H1 by lia. lra. }
  split; [exact HB|]. split; [|reflexivity]. rewrite <- slot_falls by assumption. apply Nat.eqb_refl.
Qed.

(** * Columns *)
Lemma entry_eq_refl a : entry_eq a a.
Proof. repeat split; reflexivity. Qed.
Lemma populate_length edges f t : length (populate edges f t) = (length edges - 1)%nat.
Proof. unfold populate. rewrite map_length, seq_length. reflexivity. Qed.
Lemma zeros_length edges : length (zeros edges) = (length edges - 1)%nat.
Proof. unfold zeros. rewrite map_length, seq_length. reflexivity. Qed.
Lemma populate_cell_length edges ft : length (c_col (populate_cell edges ft)) = (length edges - 1)%nat.
Proof. unfold populate_cell. destruct (snd ft); [apply populate_length|apply zeros_length]. Qed.
Definition e0 : entry := (0, 0, 0).
Lemma populate_cell_entry edges ft b : qssorted edges -> (b < length edges - 1)%nat ->
  entry_eq (nth b (c_col (populate_cell edges ft)) e0) (expected_entry edges b [ft]).
Proof.
  intros HS Hb. unfold populate_cell, expected_entry, observed, counted. destruct ft as [f [t|]]; cbn [snd fst c_col].
  - unfold populate. rewrite nth_map_seq by exact Hb. rewrite slot_falls by assumption. cbn [filter snd fst].
    destruct (falls_in edges b f) eqn:E; cbn [andb].
    + destruct (isclose t 1); repeat split; unfold e_obs, e_prob, e_cnt, Qlen, forecast_value; simpl; ring.
    + repeat split; reflexivity.
  - unfold zeros. rewrite nth_map_seq by exact Hb. repeat split; reflexivity.
Qed.
Lemma add_col_length a b : length a = length b -> length (add_col a b) = length a.
Proof. intro H. unfold add_col. rewrite map_length, combine_length. lia. Qed.
Lemma add_col_nth a b k : length a = length b -> (k < length a)%nat -> nth k (add_col a b) e0 = add_entry (nth k a e0) (nth k b e0).
Proof.
  intros HL Hk. unfold add_col. rewrite nth_map_lt with (d := (e0, e0)) by (rewrite combine_length; lia). rewrite combine_nth by exact HL. reflexivity.
Qed.
Lemma add_entry_comp a a' b b' : entry_eq a a' -> entry_eq b b' -> entry_eq (add_entry a b) (add_entry a' b').
Proof. intros (A & B & C) (D & E & F). unfold add_entry. repeat split; cbn; lra. Qed.
Lemma Qlen_app {A} (l m : list A) : Qlen (l ++ m) == Qlen l + Qlen m.
Proof. unfold Qlen. rewrite app_length, Nat2Z.inj_add, inject_Z_plus. reflexivity. Qed.
Lemma expected_app edges b l m : entry_eq (expected_entry edges b (l ++ m)) (add_entry (expected_entry edges b l) (expected_entry edges b m)).
Proof.
  unfold expected_entry, add_entry. rewrite !filter_app, map_app. repeat split; cbn; [apply Qlen_app|apply qsum_app|apply Qlen_app].
Qed.
Lemma entry_eq_trans a b c : entry_eq a b -> entry_eq b c -> entry_eq a c.
Proof. intros (A & B & C) (D & E & F). repeat split; lra. Qed.
Lemma entry_eq_sym a b : entry_eq a b -> entry_eq b a.
Proof. intros (A & B & C). repeat split; lra. Qed.

(** * The time loop *)
Definition ft0 : option Q * option Q := (None, None).
Definition pairs_at (i : nat) (times : list slice) : list (option Q * option Q) := map (fun s => nth i s ft0) times.
Definition cell0 : cell := {| c_col := []; c_masked := false |}.
Definition good (edges : list Q) (n : nat) (cells : list cell) (times : list slice) : Prop :=
  length cells = n /\ forall i, (i < n)%nat -> length (c_col (nth i cells cell0)) = (length edges - 1)%nat /\
    forall b, (b < length edges - 1)%nat -> entry_eq (nth b (c_col (nth i cells cell0)) e0) (expected_entry edges b (pairs_at i times)).
Lemma add_tables_good edges n cells times s : qssorted edges -> good edges n cells times -> length s = n -> good edges n (add_tables edges cells s) (times ++ [s]).
Proof.
  intros HS [HL HG] Hs. split; [unfold add_tables; rewrite map_length, combine_length; lia|]. intros i Hi. destruct (HG i Hi) as [H1 H2].
  unfold add_tables. rewrite nth_map_lt with (d := (cell0, ft0)) by (rewrite combine_length; lia). rewrite combine_nth by lia. cbn [fst snd c_col].
  pose proof (populate_cell_length edges (nth i s ft0)) as HPl. split; [rewrite add_col_length; congruence|]. intros b Hb.
  rewrite add_col_nth by (congruence || lia). unfold pairs_at. rewrite map_app. cbn [map].
  eapply entry_eq_trans; [|apply entry_eq_sym, expected_app]. apply add_entry_comp; [apply H2; exact Hb|]. apply populate_cell_entry; assumption.
Qed.
Lemma build_good edges n times cells : qssorted edges -> Forall (fun s => length s = n) times -> build_table edges times = Ok cells -> good edges n cells times.
Proof.
  intros HS HF H. destruct times as [|s rest]; [discriminate|]. cbn [build_table] in H. injection H as <-. inversion HF as [|? ? Hs HR]; subst.
  assert (G0 : good edges (length s) (map (populate_cell edges) s) [s]).
  { split; [apply map_length|]. intros i Hi. rewrite nth_map_lt with (d := ft0) by exact Hi. split; [apply populate_cell_length|]. intros b Hb. apply populate_cell_entry; assumption. }
  change (s :: rest) with ([s] ++ rest). clear HF. revert G0 HR. generalize (map (populate_cell edges) s) as acc. generalize [s] as done. 
  induction rest as [|s' rest IH]; intros done acc G0 HR; cbn [fold_left]; [rewrite app_nil_r; exact G0|]. inversion HR as [|? ? Hs' HR']; subst.
  replace (done ++ s' :: rest) with ((done ++ [s']) ++ rest) by (rewrite <- app_assoc; reflexivity).
  apply (IH (done ++ [s'])); [|exact HR']. apply add_tables_good; assumption.
Qed.
(** masks *)
Lemma build_unmasked edges n times cells : Forall (fun s => length s = n) times -> Forall (fun s => has_mask s = false) times ->
  build_table edges times = Ok cells -> Forall (fun c => c_masked c = false) cells.
Proof.
  intros HF HM H. destruct times as [|s rest]; [discriminate|]. cbn [build_table] in H. injection H as <-. inversion HM as [|? ? Hs HR]; subst.
  assert (P : forall s, has_mask s = false -> Forall (fun ft => c_masked (populate_cell edges ft) = false) s).
  { clear. intros s Hs. apply Forall_forall. intros ft Hft. unfold populate_cell. destruct (snd ft) eqn:E; [reflexivity|]. exfalso.
    assert (X : has_mask s = true) by (apply existsb_exists; exists ft; rewrite E; split; trivial). congruence. }
  assert (G0 : Forall (fun c => c_masked c = false) (map (populate_cell edges) s)).
  { apply Forall_forall. intros c Hc. apply in_map_iff in Hc as (ft & <- & Hft). specialize (P s Hs). rewrite Forall_forall in P. auto. }
  clear HF HM Hs. revert G0 HR. generalize (map (populate_cell edges) s) as acc. induction rest as [|s' rest IH]; intros acc G0 HR; cbn [fold_left]; [exact G0|].
  inversion HR as [|? ? Hs' HR']; subst. apply IH; [|exact HR']. apply Forall_forall. intros c Hc. unfold add_tables in Hc. apply in_map_iff in Hc as ([a ft] & <- & Hp).
  cbn [fst snd c_masked]. rewrite Hs'. pose proof (in_combine_l _ _ _ _ Hp) as Ha. pose proof (in_combine_r _ _ _ _ Hp) as Hf.
  rewrite Forall_forall in G0. rewrite (G0 a Ha). specialize (P s' Hs'). rewrite Forall_forall in P. rewrite (P ft Hf). reflexivity.
Qed.
(** If every slice has some masked truth, a point is masked iff always masked. *)
Lemma build_all_masked_slices edges n times cells i : Forall (fun s => length s = n) times -> Forall (fun s => has_mask s = true) times ->
  build_table edges times = Ok cells -> (i < n)%nat -> c_masked (nth i cells cell0) = forallb (fun ft => match snd ft with None => true | _ => false end) (pairs_at i times).
Proof.
  intros HF HM H Hi. destruct times as [|s rest]; [discriminate|]. cbn [build_table] in H. injection H as <-. inversion HM as [|? ? Hs HR]; subst. inversion HF as [|? ? Ls LR]; subst.
  assert (P : forall ft, c_masked (populate_cell edges ft) = match snd ft with None => true | _ => false end) by (intro ft; unfold populate_cell; destruct (snd ft); reflexivity).
  assert (G0 : length (map (populate_cell edges) s) = length s /\ c_masked (nth i (map (populate_cell edges) s) cell0) = forallb (fun ft => match snd ft with None => true | _ => false end) (pairs_at i [s])).
  { split; [apply map_length|]. rewrite nth_map_lt with (d := ft0) by exact Hi. rewrite P. cbn. rewrite andb_true_r. reflexivity. }
  change (s :: rest) with ([s] ++ rest). clear HF HM Hs. revert G0 HR LR. generalize (map (populate_cell edges) s) as acc. generalize [s] as done.
  induction rest as [|s' rest IH]; intros done acc [GL G0] HR LR; cbn [fold_left]; [rewrite app_nil_r; exact G0|].
  inversion HR as [|? ? Hs' HR']; subst. inversion LR as [|? ? L1 L2]; subst.
  replace (done ++ s' :: rest) with ((done ++ [s']) ++ rest) by (rewrite <- app_assoc; reflexivity). apply (IH (done ++ [s'])); trivial.
  split; [unfold add_tables; rewrite map_length, combine_length; lia|].
  unfold add_tables. rewrite nth_map_lt with (d := (cell0, ft0)) by (rewrite combine_length; lia). rewrite combine_nth by lia. cbn [fst snd c_masked]. rewrite Hs', P, G0.
  unfold pairs_at. rewrite map_app, forallb_app. cbn. rewrite andb_true_r. reflexivity.
Qed.

(** * C22 *)
Lemma expected_bounds edges b pairs : let e := expected_entry edges b pairs in
  0 <= e_obs e /\ e_obs e <= e_cnt e /\ nth b edges 0 * e_cnt e <= e_prob e /\ e_prob e <= nth (S b) edges 0 * e_cnt e.
Proof.
  cbv zeta. unfold expected_entry, e_obs, e_prob, e_cnt. cbn [fst snd]. induction pairs as [|ft l (I1 & I2 & I3 & I4)]; [unfold Qlen; simpl; change (inject_Z 0) with 0; repeat split; lra|].
  cbn [filter]. assert (EO : observed edges b ft = counted edges b ft && match snd ft with Some t => isclose t 1 | None => false end) by reflexivity. rewrite EO. clear EO. destruct (counted edges b ft) eqn:E; cbn [andb].
  - assert (G : nth b edges 0 <= forecast_value ft <= nth (S b) edges 0).
    { unfold counted in E. destruct (snd ft); [|discriminate]. unfold falls_in in E. unfold forecast_value. destruct (fst ft) as [p|]; [|discriminate].
      apply andb_true_iff in E as [E1 E2]. apply Qleb_le in E1. apply Qltb_lt in E2. lra. }
    cbn [map qsum]. destruct (match snd ft with Some t => isclose t 1 | None => false end); rewrite ?Qlen_cons; repeat split; try lra.
  - repeat split; assumption.
Qed.
Lemma total_count edges pairs : qssorted edges -> (1 < length edges)%nat ->
  Forall (fun ft => exists p t, ft = (Some p, Some t) /\ nth 0 edges 0 <= p /\ p < nth (length edges - 1) edges 0) pairs ->
  qsum (map (fun b => e_cnt (expected_entry edges b pairs)) (seq 0 (length edges - 1))) == Qlen pairs /\
  qsum (map (fun b => e_prob (expected_entry edges b pairs)) (seq 0 (length edges - 1))) == qsum (map forecast_value pairs).
Proof.
  intros HS HL HF. induction HF as [|ft l (p & t & -> & H1 & H2) HF [I1 I2]].
  - split; (transitivity (qsum (map (fun _ : nat => 0) (seq 0 (length edges - 1)))); [apply qsum_map_ext; intros; reflexivity|]; clear; induction (seq 0 _); simpl; [reflexivity|]; rewrite IHl; reflexivity).
  - destruct (falls_exists edges p HS HL H1 H2) as (b & Hb & Fb & _).
    assert (SP : forall v, qsum (map (fun k => if (k =? b)%nat then v else 0) (seq 0 (length edges - 1))) == v).
    { intro v. clear - Hb. assert (G : forall n a, (a <= b < a + n)%nat -> qsum (map (fun k => if (k =? b)%nat then v else 0) (seq a n)) == v).
      { induction n as [|n IH]; intros a Ha; [lia|]. cbn [seq map qsum]. destruct (Nat.eqb_spec a b) as [->|].
        - assert (Z : forall m c, (b < c)%nat -> qsum (map (fun k => if (k =? b)%nat then v else 0) (seq c m)) == 0).
          { induction m as [|m IHm]; intros c Hc; [reflexivity|]. cbn [seq map qsum]. destruct (Nat.eqb_spec c b); [lia|]. rewrite IHm by lia. ring. }
          rewrite Z by lia. ring.
        - rewrite IH by lia. ring. }
      apply G. lia. }
    assert (ST : forall k, (k < length edges - 1)%nat -> counted edges k (Some p, Some t) = (k =? b)%nat).
    { intros k Hk. unfold counted. cbn [fst snd]. destruct (Nat.eqb_spec k b) as [->|NE]; [exact Fb|].
      destruct (falls_in edges k (Some p)) eqn:E; [|reflexivity]. destruct NE. apply (falls_unique edges k b (Some p)); assumption. }
    split.
    + rewrite Qlen_cons, <- I1. rewrite <- (SP 1), <- qsum_map_plus. apply qsum_map_ext. intros k Hk. apply in_seq in Hk.
      unfold expected_entry, e_cnt. cbn [snd filter]. rewrite ST by lia. destruct (k =? b)%nat; [rewrite Qlen_cons|]; ring.
    + cbn [map qsum]. rewrite <- I2. rewrite <- (SP (forecast_value (Some p, Some t))), <- qsum_map_plus. apply qsum_map_ext. intros k Hk. apply in_seq in Hk.
      unfold expected_entry, e_prob. cbn [fst snd filter]. rewrite ST by lia. destruct (k =? b)%nat; [reflexivity|ring].
Qed.

(** * Bins on a float grid *)
Inductive chain (F : Q -> Prop) : list (Q * Q) -> Prop :=
| chain_one a : chain F [a]
| chain_cons a b l : (forall p, F p -> p < fst b -> p <= snd a) -> chain F (b :: l) -> chain F (a :: b :: l).
Lemma chain_first F v a l : chain F (a :: l) -> chain F ((v, snd a) :: l).
Proof. intro H. inversion H; subst; constructor; assumption. Qed.
Lemma chain_app_last F l a : chain F l -> (forall p, F p -> p < fst a -> p <= snd (last l (0, 0))) -> chain F (l ++ [a]).
Proof.
  induction 1 as [b|b c l HA HC IH]; intro H; simpl in *.
  - constructor; [exact H|constructor].
  - constructor; [exact HA|]. apply IH. exact H.
Qed.
Lemma set_last_hi_ok v l l' : set_last_hi v l = Ok l' -> l <> [] /\ map fst l' = map fst l /\ snd (last l' (0, 0)) = v /\ l' <> [] /\ (forall F, chain F l -> chain F l').
Proof.
  revert l'. induction l as [|a l IH]; intros l' H; cbn [set_last_hi] in H; [discriminate|]. destruct a as [x y]. destruct l as [|b l].
  - injection H as <-. repeat split; try discriminate. intros; constructor.
  - destruct (set_last_hi v (b :: l)) as [r'|] eqn:E; [|discriminate]. cbn [bind] in H. injection H as <-. destruct (IH r' eq_refl) as (_ & A & B & C & D).
    destruct r' as [|c r']; [easy|]. repeat split; try discriminate.
    + cbn [map fst]. f_equal. exact A.
    + exact B.
    + intros F HC. inversion HC; subst. constructor; [|apply D; assumption]. cbn [map] in A. injection A as A _. rewrite A. assumption.
Qed.
Lemma plain_chain F rnd prev next n : float_grid F rnd prev next -> (0 < n)%nat -> chain F (plain_bins rnd prev n) /\ fst (hd (0, 0) (plain_bins rnd prev n)) == 0 /\ snd (last (plain_bins rnd prev n) (0, 0)) == 1 /\ plain_bins rnd prev n <> [].
Proof.
  intros G Hn. unfold plain_bins.
  assert (C : forall m a, (a + S m = n)%nat -> chain F (map (fun k => (rnd (Qn k / Qn n), if (S k =? n)%nat then 1 else prev (rnd (Qn (S k) / Qn n)))) (seq a (S m)))
     /\ snd (last (map (fun k => (rnd (Qn k / Qn n), if (S k =? n)%nat then 1 else prev (rnd (Qn (S k) / Qn n)))) (seq a (S m))) (0, 0)) == 1).
  { induction m as [|m IH]; intros a Ha; cbn [seq map].
    - split; [constructor|]. cbn [last snd]. destruct (Nat.eqb_spec (S a) n); [reflexivity|lia].
    - destruct (IH (S a)) as [I1 I2]; [lia|]. cbn [seq map] in I1, I2. split; [|exact I2]. constructor; [|exact I1]. cbn [fst snd]. destruct (Nat.eqb_spec (S a) n); [lia|].
      intros p Fp Hp. apply (fg_prev _ _ _ _ G); trivial. apply (fg_rnd _ _ _ _ G). }
  destruct n as [|n]; [lia|]. destruct (C n 0%nat) as [C1 C2]; [lia|]. repeat split; trivial; [|discriminate]. cbn [seq map hd fst].
  assert (E : Qn 0 / Qn (S n) == 0) by (unfold Qn; simpl; unfold Qdiv; ring). 
  assert (RZ : rnd 0 == 0) by (apply (fg_id _ _ _ _ G), (fg_zero _ _ _ _ G)).
  pose proof (fg_mono _ _ _ _ G (Qn 0 / Qn (S n)) 0). pose proof (fg_mono _ _ _ _ G 0 (Qn 0 / Qn (S n))). lra.
Qed.
Lemma define_bins_chain F rnd prev next n low up bins : float_grid F rnd prev next -> define_bins rnd prev next n low up = Ok bins -> (0 < n)%nat ->
  chain F bins /\ fst (hd (0, 0) bins) == 0 /\ snd (last bins (0, 0)) == 1 /\ bins <> [].
Proof.
  intros G H Hn. unfold define_bins in H.
  assert (HN : exists n', (if low && up then (if (n <=? 2)%nat then Err ValueError else Ok (n - 2)%nat) else if low || up then (if (n =? 0)%nat then Err IndexError else Ok (n - 1)%nat) else Ok n) = Ok n' /\ (low = false -> up = false -> n' = n)).
  { destruct low, up; cbn [andb orb] in *; destruct (n <=? 2)%nat eqn:E, (n =? 0)%nat eqn:E0; try discriminate; eexists; (split; [reflexivity|]); congruence. }
  destruct HN as (n' & E & HE). rewrite E in H. cbn [bind] in H. clear E.
  destruct low.
  - destruct (Nat.eq_dec n' 0) as [->|N0]; [cbn in H; discriminate|]. destruct (plain_chain F rnd prev next n' G ltac:(lia)) as (C1 & C2 & C3 & C4).
    destruct (plain_bins rnd prev n') as [|[x y] r]; [easy|]. cbn [set_first_lo bind] in H.
    assert (D : chain F ((0, rnd tolerance) :: (next (rnd tolerance), y) :: r)).
    { constructor; [|apply (chain_first F _ (x, y)); exact C1]. cbn [fst snd]. intros p Fp Hp. apply (fg_next _ _ _ _ G); trivial. apply (fg_rnd _ _ _ _ G). }
    assert (LH : snd (last ((0, rnd tolerance) :: (next (rnd tolerance), y) :: r) (0, 0)) == 1) by (destruct r; exact C3).
    destruct up.
    + destruct (set_last_hi _ _) as [b'|] eqn:E; [|discriminate]. cbn [bind] in H. injection H as <-. destruct (set_last_hi_ok _ _ _ E) as (_ & M & LV & NE & CH).
      split; [|split; [|split]].
      * apply chain_app_last; [apply CH; exact D|]. rewrite LV. cbn [fst]. intros p Fp Hp. apply (fg_prev _ _ _ _ G); trivial. apply (fg_rnd _ _ _ _ G).
      * destruct b' as [|b0 b']; [easy|]. cbn [map] in M. injection M as M _. cbn [app hd]. rewrite M. reflexivity.
      * rewrite last_last. reflexivity.
      * destruct b'; discriminate.
    + injection H as <-. split; [exact D|]. split; [reflexivity|]. split; [exact LH|discriminate].
  - destruct (Nat.eq_dec n' 0) as [->|N0].
    { destruct up; [cbn in H; discriminate|]. rewrite HE in * by reflexivity. lia. }
    destruct (plain_chain F rnd prev next n' G ltac:(lia)) as (C1 & C2 & C3 & C4). cbn [bind] in H. destruct up.
    + destruct (set_last_hi _ _) as [b'|] eqn:E; [|discriminate]. cbn [bind] in H. injection H as <-. destruct (set_last_hi_ok _ _ _ E) as (_ & M & LV & NE & CH).
      split; [|split; [|split]].
      * apply chain_app_last; [apply CH; exact C1|]. rewrite LV. cbn [fst]. intros p Fp Hp. apply (fg_prev _ _ _ _ G); trivial. apply (fg_rnd _ _ _ _ G).
      * destruct b' as [|b0 b']; [easy|]. destruct (plain_bins rnd prev n') as [|q0 q]; [easy|]. cbn [map] in M. injection M as M _. cbn [app hd]. rewrite M. exact C2.
      * rewrite last_last. reflexivity.
      * destruct b'; discriminate.
    + injection H as <-. repeat split; trivial.
Qed.
Lemma chain_nth F l b : chain F l -> (S b < length l)%nat -> forall p, F p -> p < fst (nth (S b) l (0, 0)) -> p <= snd (nth b l (0, 0)).
Proof.
  intro H. revert b. induction H as [a|a c l HA HC IH]; intros b Hb p Fp Hp; [simpl in Hb; lia|]. destruct b; [apply HA; assumption|]. apply (IH b); [simpl in *; lia|assumption|exact Hp].
Qed.
Lemma bins_cover F rnd prev next n low up bins p : float_grid F rnd prev next -> 1 < rnd (1 + tolerance) -> define_bins rnd prev next n low up = Ok bins -> (0 < n)%nat ->
  qssorted (bin_edges rnd bins) -> F p -> 0 <= p <= 1 ->
  exists b, (b < length bins)%nat /\ fst (nth b bins (0, 0)) <= p <= snd (nth b bins (0, 0)) /\ slot (bin_edges rnd bins) (Some p) = b /\
    falls_in (bin_edges rnd bins) b (Some p) = true.
Proof.
  intros G HT HD Hn HE Fp Hp. destruct (define_bins_chain F rnd prev next n low up bins G HD Hn) as (HC & H0 & H1 & HN).
  assert (LE : length (bin_edges rnd bins) = S (length bins)) by (unfold bin_edges; rewrite app_length, map_length; simpl; lia).
  assert (LB : (0 < length bins)%nat) by (destruct bins; [easy|simpl; lia]).
  assert (NE : forall k, (k < length bins)%nat -> nth k (bin_edges rnd bins) 0 = fst (nth k bins (0, 0))).
  { intros k Hk. unfold bin_edges. rewrite app_nth1 by (rewrite map_length; exact Hk). apply nth_map_lt. exact Hk. }
  assert (NL : nth (length bins) (bin_edges rnd bins) 0 = rnd (snd (last bins (0, 0)) + tolerance)).
  { unfold bin_edges. rewrite app_nth2; rewrite map_length; [|lia]. rewrite Nat.sub_diag. reflexivity. }
  assert (UP : 1 < rnd (snd (last bins (0, 0)) + tolerance)).
  { pose proof (fg_mono _ _ _ _ G (1 + tolerance) (snd (last bins (0, 0)) + tolerance)). lra. }
  destruct (falls_exists (bin_edges rnd bins) p HE) as (b & Hb & Fb & Sb); [lia| | |].
  - rewrite NE by exact LB. destruct bins; [easy|]. cbn [nth hd] in *. lra.
  - replace (length (bin_edges rnd bins) - 1)%nat with (length bins) by lia. rewrite NL. lra.
  - exists b. rewrite LE in Hb. split; [lia|]. split; [|split; [exact Sb|exact Fb]].
    unfold falls_in in Fb. apply andb_true_iff in Fb as [F1 F2]. apply Qleb_le in F1. apply Qltb_lt in F2. rewrite NE in F1 by lia. split; [exact F1|].
    destruct (Nat.eq_dec (S b) (length bins)) as [E|E].
    + assert (EL : last bins (0, 0) = nth b bins (0, 0)) by (rewrite last_nth; f_equal; lia). rewrite <- EL. lra.
    + apply (chain_nth F bins b HC); [lia|exact Fp|]. rewrite <- NE by lia. exact F2.
Qed.

(** A concrete grid: the multiples of 2^-24. *)
Definition gs : Q := inject_Z 16777216.
Definition grid (x : Q) : Prop := exists z, x == inject_Z z / gs.
Definition grid_rnd (x : Q) : Q := inject_Z (Qfloor (x * gs)) / gs.
Definition grid_prev (x : Q) : Q := x - 1 / gs.
Definition grid_next (x : Q) : Q := x + 1 / gs.
Lemma gs_pos : 0 < gs. Proof. reflexivity. Qed.
Lemma div_gs_le a b : a <= b -> a / gs <= b / gs.
Proof. intro H. unfold Qdiv. apply Qmult_le_compat_r; [exact H|]. unfold gs. discriminate. Qed.
Lemma grid_ok : float_grid grid grid_rnd grid_prev grid_next.
Proof.
  pose proof gs_pos as GP. split.
  - intro x. exists (Qfloor (x * gs)). reflexivity.
  - intros x y H. apply div_gs_le. rewrite <- Zle_Qle. apply Qfloor_resp_le. apply Qmult_le_compat_r; [exact H|lra].
  - intros x [z E]. unfold grid_rnd. assert (E1 : x * gs == inject_Z z) by (rewrite E; field; lra). rewrite E1, Qfloor_Z. symmetry. exact E.
  - exists 0%Z. reflexivity.
  - exists 16777216%Z. reflexivity.
  - intros x y [a Ea] [b Eb] H. unfold grid_prev. rewrite Ea, Eb in *.
    assert (L : (b < a)%Z). { destruct (Z_lt_le_dec b a) as [|G]; [assumption|]. exfalso. rewrite Zle_Qle in G. apply div_gs_le in G. lra. }
    assert (L' : (b <= a - 1)%Z) by lia. rewrite Zle_Qle in L'. apply div_gs_le in L'.
    assert (E : inject_Z (a - 1) / gs == inject_Z a / gs - 1 / gs). { replace (a - 1)%Z with (a + -1)%Z by lia. rewrite inject_Z_plus. change (inject_Z (-1)) with (- (1)). unfold Qdiv. ring. }
    lra.
  - intros x _ _. unfold grid_prev. assert (0 < 1 / gs) by reflexivity. lra.
  - intros x y [a Ea] [b Eb] H. unfold grid_next in H. rewrite Ea, Eb in *.
    assert (L : (b < a + 1)%Z). { destruct (Z_lt_le_dec b (a + 1)) as [|G]; [assumption|]. exfalso. rewrite Zle_Qle in G. apply div_gs_le in G.
      assert (E : inject_Z (a + 1) / gs == inject_Z a / gs + 1 / gs). { rewrite inject_Z_plus. change (inject_Z 1) with 1. unfold Qdiv. ring. } lra. }
    assert (L' : (b <= a)%Z) by lia. rewrite Zle_Qle in L'. apply div_gs_le in L'. exact L'.
  - intros x _ _. unfold grid_next. assert (0 < 1 / gs) by reflexivity. lra.
Qed.

(** * C23 *)
Lemma build_append edges n t1 t2 c1 c2 c i b : qssorted edges -> Forall (fun s => length s = n) (t1 ++ t2) ->
  build_table edges t1 = Ok c1 -> build_table edges t2 = Ok c2 -> build_table edges (t1 ++ t2) = Ok c -> (i < n)%nat -> (b < length edges - 1)%nat ->
  entry_eq (nth b (c_col (nth i c cell0)) e0) (add_entry (nth b (c_col (nth i c1 cell0)) e0) (nth b (c_col (nth i c2 cell0)) e0)).
Proof.
  intros HS HF H1 H2 H Hi Hb. apply Forall_app in HF as [F1 F2].
  destruct (build_good edges n t1 c1 HS F1 H1) as [_ G1]. destruct (build_good edges n t2 c2 HS F2 H2) as [_ G2].
  destruct (build_good edges n (t1 ++ t2) c HS (proj2 (Forall_app _ _ _) (conj F1 F2)) H) as [_ G].
  destruct (G i Hi) as [_ A]. destruct (G1 i Hi) as [_ A1]. destruct (G2 i Hi) as [_ A2].
  eapply entry_eq_trans; [apply A; exact Hb|]. unfold pairs_at. rewrite map_app. eapply entry_eq_trans; [apply expected_app|].
  apply entry_eq_sym, add_entry_comp; [apply A1|apply A2]; exact Hb.
Qed.
Lemma build_perm edges n t1 t2 c1 c2 i b : qssorted edges -> Permutation t1 t2 -> Forall (fun s => length s = n) t1 ->
  build_table edges t1 = Ok c1 -> build_table edges t2 = Ok c2 -> (i < n)%nat -> (b < length edges - 1)%nat ->
  entry_eq (nth b (c_col (nth i c1 cell0)) e0) (nth b (c_col (nth i c2 cell0)) e0).
Proof.
  intros HS HP F1 H1 H2 Hi Hb.
  assert (F2 : Forall (fun s => length s = n) t2) by (rewrite Forall_forall in *; intros s Hs; apply F1, (Permutation_in _ (Permutation_sym HP)), Hs).
  destruct (build_good edges n t1 c1 HS F1 H1) as [_ G1]. destruct (build_good edges n t2 c2 HS F2 H2) as [_ G2].
  destruct (G1 i Hi) as [_ A1]. destruct (G2 i Hi) as [_ A2]. eapply entry_eq_trans; [apply A1; exact Hb|]. eapply entry_eq_trans; [|apply entry_eq_sym, A2; exact Hb].
  assert (PP : Permutation (pairs_at i t1) (pairs_at i t2)) by (apply Permutation_map; exact HP).
  assert (PF : forall f, Permutation (filter f (pairs_at i t1)) (filter f (pairs_at i t2))).
  { intro f. clear - PP. induction PP; simpl; [constructor| | |eapply perm_trans; eauto].
    - destruct (f x); [constructor|]; exact IHPP.
    - destruct (f x), (f y); try apply Permutation_refl. apply perm_swap. }
  unfold expected_entry. repeat split; cbn.
  - unfold Qlen. rewrite (Permutation_length (PF _)). reflexivity.
  - apply qsum_perm, Permutation_map, PF.
  - unfold Qlen. rewrite (Permutation_length (PF _)). reflexivity.
Qed.
(** aggregation *)
Lemma check_frt_pairwise l : Forall (fun a => (a_lo a <= a_hi a)%Z) l -> check_frt l = true -> StronglySorted (fun a b => (a_hi a < a_lo b)%Z) l.
Proof.
  induction l as [|a l IH]; intros HF HC; [constructor|]. inversion HF as [|? ? Ha HF']; subst. destruct l as [|b l]; [repeat constructor|].
  unfold check_frt in HC. cbn [map tl combine forallb fst snd] in HC. apply andb_true_iff in HC as [C1 C2]. apply Z.ltb_lt in C1.
  assert (C2' : check_frt (b :: l) = true) by exact C2. specialize (IH HF' C2'). constructor; [exact IH|]. constructor; [exact C1|].
  inversion IH as [|? ? _ IF]; subst. eapply Forall_impl; [|exact IF]. cbv beta. intros c Hc. inversion HF' as [|? ? Hb _]; subst. lia.
Qed.
Lemma check_frt_iff l : Forall (fun a => (a_lo a <= a_hi a)%Z) l -> check_frt l = true <-> StronglySorted (fun a b => (a_hi a < a_lo b)%Z) l.
Proof.
  intro HF. split; [apply check_frt_pairwise; exact HF|]. clear HF. induction 1 as [|a l HS IH Hf]; [reflexivity|]. destruct l as [|b l]; [reflexivity|].
  unfold check_frt. cbn [map tl combine forallb fst snd]. apply andb_true_iff. split; [inversion Hf; apply Z.ltb_lt; assumption|exact IH].
Qed.
Lemma fold_cols n l : forall acc k, Forall (fun c => length c = n) l -> length acc = n -> (k < n)%nat ->
  length (fold_left add_col l acc) = n /\
  nth k (fold_left add_col l acc) e0 = fold_left add_entry (map (fun c => nth k c e0) l) (nth k acc e0).
Proof.
  induction l as [|c l IH]; intros acc k HF HL Hk; cbn [fold_left map]; [split; [exact HL|reflexivity]|]. inversion HF as [|? ? Hc HF']; subst.
  assert (HL' : length (add_col acc c) = length acc) by (apply add_col_length; congruence).
  destruct (IH (add_col acc c) k HF' HL' Hk) as [I1 I2]. split; [exact I1|]. rewrite I2. rewrite add_col_nth by (congruence || lia). reflexivity.
Qed.
Lemma fold_entries l : forall a, let r := fold_left add_entry l a in
  e_obs r == e_obs a + qsum (map e_obs l) /\ e_prob r == e_prob a + qsum (map e_prob l) /\ e_cnt r == e_cnt a + qsum (map e_cnt l).
Proof.
  induction l as [|x l IH]; intro a; cbn [fold_left map qsum]; [cbv zeta; repeat split; ring|]. cbv zeta. destruct (IH (add_entry a x)) as (A & B & C). cbv zeta in *.
  rewrite A, B, C. unfold add_entry, e_obs, e_prob, e_cnt. cbn. repeat split; ring.
Qed.
Lemma aggregate_sum l r n k : aggregate l = Ok r -> (2 <= length l)%nat -> Forall (fun a => length (a_col a) = n) l -> (k < n)%nat ->
  e_obs (nth k (a_col r) e0) == qsum (map (fun a => e_obs (nth k (a_col a) e0)) l) /\
  e_prob (nth k (a_col r) e0) == qsum (map (fun a => e_prob (nth k (a_col a) e0)) l) /\
  e_cnt (nth k (a_col r) e0) == qsum (map (fun a => e_cnt (nth k (a_col a) e0)) l).
Proof.
  intros H HL HF Hk. destruct l as [|a [|b l]]; simpl in HL; try lia. cbn [aggregate] in H. destruct (check_frt _); [|discriminate]. injection H as <-. cbn [a_col].
  inversion HF as [|? ? Ha HF']; subst. unfold sum_cols. cbn [map].
  assert (HF2 : Forall (fun c => length c = length (a_col a)) (map a_col (b :: l))) by (apply Forall_forall; intros c Hc; apply in_map_iff in Hc as (x & <- & Hx); rewrite Forall_forall in HF'; auto).
  destruct (fold_cols (length (a_col a)) (map a_col (b :: l)) (a_col a) k HF2 eq_refl Hk) as [_ E]. cbn [map fold_left] in E. rewrite E.
  pose proof (fold_entries (map (fun c => nth k c e0) (a_col b :: map a_col l)) (nth k (a_col a) e0)) as G. cbv zeta in G. cbn [map fold_left] in G.
  rewrite !map_map in *. exact G.
Qed.
Lemma aggregate_accepts l r : Forall (fun a => (a_lo a <= a_hi a)%Z) l -> aggregate l = Ok r -> StronglySorted (fun a b => (a_hi a < a_lo b)%Z) l.
Proof.
  intros HF H. destruct l as [|a [|b l]]; [discriminate|repeat constructor|]. apply check_frt_pairwise; [exact HF|]. cbn [aggregate] in H. destruct (check_frt _); [reflexivity|discriminate].
Qed.
