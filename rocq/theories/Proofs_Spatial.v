From Coq Require Import Qround.
From Verif Require Import Base Model_Percentiles Proofs_Percentiles Model_Nbhood Proofs_Nbhood Model_Vicinity Proofs_Vicinity Model_Spatial.
Local Open Scope Q_scope.

Definition regular (p0 d : Q) (l : list Q) : Prop := forall k, (k < length l)%nat -> nth k l 0 == p0 + Qn k * d.

Lemma diffs_length l : length (diffs l) = (length l - 1)%nat.
Proof. induction l as [|x [|y l] IH]; [reflexivity|reflexivity|]. cbn [diffs length] in *. rewrite IH. lia. Qed.
Lemma diffs_nth l : forall k, (S k < length l)%nat -> nth k (diffs l) 0 = nth (S k) l 0 - nth k l 0.
Proof.
  induction l as [|x [|y l] IH]; intros k Hk; cbn [length] in Hk; [lia|lia|]. destruct k as [|k]; [reflexivity|].
  change (nth k (diffs (y :: l)) 0 = nth (S k) (y :: l) 0 - nth k (y :: l) 0). apply IH. cbn [length]. lia.
Qed.
Lemma diffs_regular p0 d l : regular p0 d l -> Forall (fun x => x == d) (diffs l).
Proof.
  intro H. apply Forall_forall. intros x Hx. apply (In_nth _ _ 0) in Hx. destruct Hx as [k [Hk <-]]. rewrite diffs_length in Hk.
  rewrite diffs_nth by lia. rewrite (H (S k) ltac:(lia)), (H k ltac:(lia)). rewrite Qn_S. ring.
Qed.
Lemma qsum_const l c : Forall (fun x => x == c) l -> qsum l == c * Qlen l.
Proof.
  induction 1 as [|x l Hx Hl IH]; [unfold Qlen; cbn; ring|]. rewrite Qlen_cons. cbn [qsum fold_right]. unfold qsum in IH. rewrite IH, Hx. ring.
Qed.
Lemma spacing_regular p0 d l : (2 <= length l)%nat -> regular p0 d l -> exists s, grid_spacing l = Ok (Some s) /\ s == Qabs d.
Proof.
  intros Hl H. unfold grid_spacing. cbv zeta. assert (F : Forall (fun x => x == Qabs d) (map Qabs (diffs l))).
  { apply Forall_forall. intros x Hx. apply in_map_iff in Hx. destruct Hx as [y [<- Hy]]. assert (A := diffs_regular p0 d l H). rewrite Forall_forall in A. rewrite (A y Hy). reflexivity. }
  assert (N : map Qabs (diffs l) <> []) by (intro E; apply (f_equal (@length Q)) in E; rewrite map_length, diffs_length in E; cbn in E; lia).
  set (D := map Qabs (diffs l)) in *. assert (E : mean_of D = Some (qsum D / Qlen D)) by (destruct D; [congruence|reflexivity]). rewrite E.
  assert (M : qsum D / Qlen D == Qabs d). { rewrite (qsum_const D _ F). assert (A := Qlen_pos D N). field. lra. }
  assert (B : forallb (fun x => Qle_bool (Qabs (x - qsum D / Qlen D)) ((1 # 100000) * Qabs (qsum D / Qlen D))) D = true).
  { apply forallb_forall. intros x Hx. rewrite Forall_forall in F. assert (Ex := F x Hx). apply Qle_bool_iff.
    assert (Z : x - qsum D / Qlen D == 0) by (rewrite M; lra). rewrite Z. change (Qabs 0) with 0. assert (A := Qabs_nonneg (qsum D / Qlen D)). lra. }
  rewrite B. eexists. split; [reflexivity|exact M].
Qed.
Lemma spacing_tolerance l s : grid_spacing l = Ok (Some s) -> 0 <= s /\ (2 <= length l)%nat /\
  forall k, (S k < length l)%nat -> Qabs (Qabs (nth (S k) l 0 - nth k l 0) - s) <= (1 # 100000) * s.
Proof.
  unfold grid_spacing. cbv zeta. set (D := map Qabs (diffs l)). destruct (mean_of D) as [m|] eqn:Em; [|discriminate].
  destruct (forallb _ D) eqn:F; [|discriminate]. intro H. apply Ok_inj in H. injection H as ->.
  assert (HD : D <> []) by (intro E; rewrite E in Em; discriminate).
  assert (Hm : 0 <= s).
  { assert (Em' : mean_of D = Some (qsum D / Qlen D)) by (destruct D; [congruence|reflexivity]). rewrite Em' in Em. injection Em as <-.
    apply Qle_shift_div_l; [apply Qlen_pos; exact HD|]. rewrite Qmult_0_l. apply qsum_nonneg. apply Forall_forall. intros y Hy. unfold D in Hy.
    apply in_map_iff in Hy. destruct Hy as [z [<- _]]. apply Qabs_nonneg. }
  split; [exact Hm|]. split.
  - assert (L : length D <> 0%nat) by (destruct D; [congruence|discriminate]). unfold D in L. rewrite map_length, diffs_length in L. lia.
  - intros k Hk. rewrite forallb_forall in F. specialize (F (Qabs (nth (S k) l 0 - nth k l 0))).
    assert (Hin : In (Qabs (nth (S k) l 0 - nth k l 0)) D).
    { rewrite <- diffs_nth by exact Hk. unfold D. apply in_map. apply nth_In. rewrite diffs_length. lia. }
    apply F in Hin. apply Qle_bool_iff in Hin. rewrite (Qabs_pos s Hm) in Hin. exact Hin.
Qed.
Lemma floor_div q s : 0 < s -> inject_Z (Qfloor (q / s)) * s <= q /\ q < (inject_Z (Qfloor (q / s)) + 1) * s.
Proof.
  intro Hs. assert (A := Qfloor_le (q / s)). assert (B := Qlt_floor (q / s)). rewrite inject_Z_plus in B. change (inject_Z 1) with 1 in B.
  assert (E : q == (q / s) * s) by (field; lra). split.
  - rewrite E at 2. apply Qmult_le_compat_r; lra.
  - rewrite E at 1. apply Qmult_lt_compat_r; lra.
Qed.
Lemma cells_spec l distance s : grid_spacing l = Ok (Some s) -> 0 < s ->
  (forall k, distance_to_cells l distance = Ok k <-> (1 <= k)%Z /\ inject_Z k * s <= distance /\ distance < (inject_Z k + 1) * s) /\
  (distance_to_cells l distance = Err ValueError <-> distance < s).
Proof.
  intros H Hs. unfold distance_to_cells. rewrite H. cbn [bind]. assert (Ha : Qabs s == s) by (apply Qabs_pos; lra).
  assert (EF : Qfloor (distance / Qabs s) = Qfloor (distance / s)) by (apply Qfloor_comp; rewrite Ha; reflexivity).
  destruct (floor_div distance s Hs) as [F1 F2]. cbv zeta. rewrite EF. set (c := Qfloor (distance / s)) in *.
  assert (U : forall k, inject_Z k * s <= distance -> distance < (inject_Z k + 1) * s -> k = c).
  { intros k K1 K2. assert (inject_Z k < inject_Z c + 1) by (apply (Qmult_lt_r _ _ s Hs); lra). assert (inject_Z c < inject_Z k + 1) by (apply (Qmult_lt_r _ _ s Hs); lra).
    change 1 with (inject_Z 1) in H0, H1. rewrite <- inject_Z_plus, <- Zlt_Qlt in H0, H1. lia. }
  destruct (Qle_bool distance 0) eqn:E0.
  - apply Qle_bool_iff in E0. split.
    + intro k. split; [discriminate|]. intros [K [K1 _]]. exfalso. assert (1 <= inject_Z k) by (change 1 with (inject_Z 1); rewrite <- Zle_Qle; exact K).
      assert (1 * s <= inject_Z k * s) by (apply Qmult_le_compat_r; lra). lra.
    + split; [intros _; lra|reflexivity].
  - assert (D0 : 0 < distance) by (apply Qnot_le_lt; intro A; apply Qle_bool_iff in A; congruence).
    assert (C0 : (0 <= c)%Z) by (unfold c; apply (Qfloor_resp_le 0 (distance / s)); apply Qle_shift_div_l; [exact Hs|lra]).
    destruct (Z.eqb_spec c 0) as [Ec|Ec].
    + rewrite Ec in F2. change (inject_Z 0) with 0 in F2. split.
      * intro k. split; [discriminate|]. intros [K [K1 K2]]. rewrite (U k K1 K2) in K. lia.
      * split; [intros _; lra|reflexivity].
    + split.
      * intro k. split; [intro E; apply Ok_inj in E; subst k; split; [lia|split; assumption]|]. intros [K [K1 K2]]. rewrite (U k K1 K2). reflexivity.
      * split; [discriminate|]. intro L. exfalso. assert (1 <= inject_Z c) by (change 1 with (inject_Z 1); rewrite <- Zle_Qle; lia).
        assert (1 * s <= inject_Z c * s) by (apply Qmult_le_compat_r; lra). lra.
Qed.

(** * Halo coordinates *)
Lemma isclose_regular d l : Forall (fun x => x == d) l -> isclose (qsum (diffs l)) 0 = true.
Proof.
  intro H. apply isclose_refl. assert (F : Forall (fun x => x == 0) (diffs l)).
  { apply Forall_forall. intros x Hx. apply (In_nth _ _ 0) in Hx. destruct Hx as [k [Hk <-]]. rewrite diffs_length in Hk. rewrite diffs_nth by lia.
    rewrite Forall_forall in H. rewrite (H (nth (S k) l 0)), (H (nth k l 0)) by (apply nth_In; lia). ring. }
  rewrite (qsum_const _ 0 F). ring.
Qed.
Lemma pad_regular p0 d l w act : (2 <= length l)%nat -> regular p0 d l -> exists inc, inc == d /\
  pad_coord l w act = Ok (let new := match act with
          | Add => linspace (hd 0 l - Qn w * inc) (last l 0 + Qn w * inc) (length l + w + w)
          | Remove => firstn (length l - w - w) (skipn w l) end in (new, map (fun p => (p - (1 # 2) * inc, p + (1 # 2) * inc)) new)).
Proof.
  intros Hl H. assert (F := diffs_regular p0 d l H). unfold pad_coord. cbv zeta. rewrite (isclose_regular d _ F).
  assert (L := diffs_length l). destruct (diffs l) as [|inc r]; [cbn in L; lia|]. exists inc. split; [inversion F; subst; assumption|reflexivity].
Qed.
Lemma last_nth l : l <> [] -> last l 0 = nth (length l - 1) l 0.
Proof.
  induction l as [|x [|y l] IH]; intro H; [congruence|reflexivity|]. cbn [last]. cbn [last] in IH. rewrite IH by discriminate. cbn [length]. replace (S (S (length l)) - 1)%nat with (S (length (y :: l) - 1)) by (cbn; lia). reflexivity.
Qed.
Lemma pad_add p0 d l w q b : (2 <= length l)%nat -> regular p0 d l -> pad_coord l w Add = Ok (q, b) ->
  length q = (length l + 2 * w)%nat /\ regular (p0 - Qn w * d) d q /\ length b = length q /\
  forall k, (k < length q)%nat -> fst (nth k b (0, 0)) == nth k q 0 - (1 # 2) * d /\ snd (nth k b (0, 0)) == nth k q 0 + (1 # 2) * d.
Proof.
  intros Hl H E. destruct (pad_regular p0 d l w Add Hl H) as [inc [Ei Ep]]. rewrite Ep in E. apply Ok_inj in E. cbv zeta in E. apply pair_equal_spec in E. destruct E as [<- <-].
  set (n := (length l + w + w)%nat). assert (Hn : (n =? 1)%nat = false) by (apply Nat.eqb_neq; unfold n; lia).
  split; [rewrite linspace_length; unfold n; lia|]. split.
  - intros k Hk. rewrite linspace_length in Hk. unfold linspace. rewrite nth_map_seq by exact Hk. rewrite Hn.
    assert (H0 : hd 0 l == p0). { destruct l as [|x l]; [cbn in Hl; lia|]. assert (A := H 0%nat ltac:(cbn; lia)). cbn [nth] in A. cbn [hd]. rewrite A. change (Qn 0) with 0. ring. }
    assert (H1 : last l 0 == p0 + (Qn (length l) - 1) * d).
    { rewrite last_nth by (destruct l; [cbn in Hl; lia|discriminate]). rewrite (H (length l - 1)%nat) by lia. assert (A := Qn_S (length l - 1)). replace (S (length l - 1)) with (length l) in A by lia. rewrite A. ring. }
    rewrite H0, H1, Ei. assert (A := Qn_S (n - 1)). replace (S (n - 1)) with n in A by (unfold n; lia). unfold n in A at 1. rewrite !Qn_plus in A.
    assert (P : 0 < Qn (n - 1)) by (assert (B := Qn_lt 0 (n - 1) ltac:(unfold n; lia)); exact B).
    assert (L : Qn (length l) - 1 == Qn (n - 1) - Qn w - Qn w) by lra.
    rewrite L. field. lra.
  - split; [rewrite map_length; reflexivity|]. intros k Hk. rewrite nth_map_lt with (d := 0) by exact Hk. cbn [fst snd]. match goal with |- context[nth k ?q 0] => generalize (nth k q 0) end. intro v. split; rewrite Ei; reflexivity.
Qed.
Lemma pad_remove p0 d l w q b : (2 <= length l)%nat -> regular p0 d l -> pad_coord l w Remove = Ok (q, b) -> q = firstn (length l - w - w) (skipn w l).
Proof.
  intros Hl H E. destruct (pad_regular p0 d l w Remove Hl H) as [inc [Ei Ep]]. rewrite Ep in E. apply Ok_inj in E. cbv zeta in E. apply pair_equal_spec in E. destruct E as [<- _]. reflexivity.
Qed.
Lemma nth_firstn_skipn {A} (l : list A) w n k d : (k < n)%nat -> nth k (firstn n (skipn w l)) d = nth (w + k) l d.
Proof.
  intro Hk. assert (E : nth k (firstn n (skipn w l)) d = nth k (skipn w l) d).
  { clear -Hk. revert k Hk. generalize (skipn w l) as m. induction n as [|n IH]; intros m k Hk; [lia|]. destruct m as [|x m]; [reflexivity|]. destruct k as [|k]; [reflexivity|]. cbn. apply IH. lia. }
  rewrite E. clear E Hk n. revert l. induction w as [|w IH]; intro l; [reflexivity|]. destruct l as [|x l]; [destruct k; reflexivity|]. cbn. apply IH.
Qed.
Lemma pad_roundtrip p0 d l w q b l' b' : (2 <= length l)%nat -> regular p0 d l -> pad_coord l w Add = Ok (q, b) -> pad_coord q w Remove = Ok (l', b') ->
  length l' = length l /\ forall k, (k < length l)%nat -> nth k l' 0 == nth k l 0.
Proof.
  intros Hl H E E'. destruct (pad_add p0 d l w q b Hl H E) as [Lq [Rq _]]. rewrite (pad_remove _ d q w l' b' ltac:(lia) Rq E').
  split; [rewrite firstn_length, skipn_length; lia|]. intros k Hk. rewrite nth_firstn_skipn by lia. rewrite (Rq (w + k)%nat), (H k) by lia. rewrite Qn_plus. ring.
Qed.
