From Verif Require Import Base Model_Rescale Proofs_Rescale Model_Threshold Spec_Threshold.

(** One-point form of the truth value. *)
Definition truth_pt (c : cmp) (t lo hi x : Q) : Q :=
  if lo =? hi then (if cmp_fun c x t then 1 else 0)
  else
    let v := if x <? t then rescale_pt lo t 0 (1 # 2) true x else rescale_pt t hi (1 # 2) 1 true x in
    if is_less c then 1 - v else v.

Lemma truth_values_pt c t lo hi data out :
  truth_values c t (lo, hi) data = Ok out -> out = map (truth_pt c t lo hi) data.
Proof.
  unfold truth_values, truth_pt. destruct (Qeqb_spec lo hi) as [E|E].
  - intro H. injection H as <-. reflexivity.
  - destruct (rescale data (Some (lo, t)) _ true) as [a|] eqn:Ea; [|discriminate]. cbn [bind].
    destruct (rescale data (Some (t, hi)) _ true) as [b|] eqn:Eb; [|discriminate]. cbn [bind].
    apply rescale_ok in Ea as (_ & _ & ->). apply rescale_ok in Eb as (_ & _ & ->).
    intro H. injection H as <-.
    assert (HZ : forall f0 f1, zipw (fun (d : Q) (ab : Q * Q) => if d <? t then fst ab else snd ab) data
                       (combine (map f0 data) (map f1 data))
                 = map (fun x => if x <? t then f0 x else f1 x) data).
    { intros f0 f1. clear. induction data as [|x data IH]; [reflexivity|]. simpl. rewrite IH. reflexivity. }
    rewrite HZ. destruct (is_less c); [rewrite map_map|]; reflexivity.
Qed.


Lemma truth_values_ok_iff c t lo hi data :
  (exists out, truth_values c t (lo, hi) data = Ok out) <-> usable t lo hi.
Proof.
  unfold usable, truth_values. destruct (Qeqb_spec lo hi) as [E|E].
  - split; [auto|]. intros _. eexists; reflexivity.
  - split.
    + intros [out H].
      destruct (rescale data (Some (lo, t)) _ true) as [a|] eqn:Ea; [|discriminate]. cbn [bind] in H.
      destruct (rescale data (Some (t, hi)) _ true) as [b|] eqn:Eb; [|discriminate].
      apply rescale_ok in Ea as (? & _ & _). apply rescale_ok in Eb as (? & _ & _). auto.
    + intros [H|[H1 H2]]; [contradiction|].
      rewrite rescale_total by (trivial; lra). cbn [bind].
      rewrite rescale_total by (trivial; lra). cbn [bind]. eexists; reflexivity.
Qed.
Lemma truth_values_err c t lo hi data : ~ usable t lo hi -> truth_values c t (lo, hi) data = Err ValueError.
Proof.
  intro H. destruct (truth_values c t (lo, hi) data) as [out|e] eqn:E.
  - exfalso. apply H. apply (truth_values_ok_iff c t lo hi data). eauto.
  - unfold truth_values in E. destruct (lo =? hi); [discriminate|].
    unfold rescale in E. simpl in E. destruct (lo =? t); [injection E as <-; reflexivity|].
    cbn [bind] in E. destruct (t =? hi); [injection E as <-; reflexivity|]. discriminate.
Qed.

Lemma is_less_spec c : is_less c = match c with GE | GT => false | LE | LT => true end.
Proof. destruct c; reflexivity. Qed.

Lemma truth_pt_range c t lo hi x : 0 <= truth_pt c t lo hi x <= 1.
Proof.
  unfold truth_pt. destruct (lo =? hi); [destruct (cmp_fun c x t); lra|].
  pose proof (rescale_pt_range lo t 0 (1 # 2) x) as H1.
  pose proof (rescale_pt_range t hi (1 # 2) 1 x) as H2.
  change (Qmin 0 (1 # 2)) with 0 in H1. change (Qmax 0 (1 # 2)) with (1 # 2) in H1.
  change (Qmin (1 # 2) 1) with (1 # 2) in H2. change (Qmax (1 # 2) 1) with 1 in H2.
  destruct (x <? t), (is_less c); lra.
Qed.

(** Clipped ramps outside their data range. *)
Lemma ramp_low lo t x : lo < t -> x <= lo -> rescale_pt lo t 0 (1 # 2) true x == 0.
Proof.
  intros H Hx. pose proof (rescale_pt_range lo t 0 (1 # 2) x) as H1.
  change (Qmin 0 (1 # 2)) with 0 in H1.
  pose proof (rescale_pt_mono lo t 0 (1 # 2) true x lo H ltac:(lra) Hx) as H2.
  rewrite rescale_pt_lo in H2 by lra. lra.
Qed.
Lemma ramp_high t hi x : t < hi -> hi <= x -> rescale_pt t hi (1 # 2) 1 true x == 1.
Proof.
  intros H Hx. pose proof (rescale_pt_range t hi (1 # 2) 1 x) as H1.
  change (Qmax (1 # 2) 1) with 1 in H1.
  pose proof (rescale_pt_mono t hi (1 # 2) 1 true hi x H ltac:(lra) Hx) as H2.
  rewrite rescale_pt_hi in H2 by lra. lra.
Qed.

Definition above_pt (t lo hi x : Q) : Q :=
  if x <? t then rescale_pt lo t 0 (1 # 2) true x else rescale_pt t hi (1 # 2) 1 true x.
Lemma above_mono t lo hi x y : lo < t < hi -> x <= y -> above_pt t lo hi x <= above_pt t lo hi y.
Proof.
  intros [H1 H2] Hxy. unfold above_pt.
  destruct (Qltb_spec x t), (Qltb_spec y t); try lra.
  - apply rescale_pt_mono; lra.
  - pose proof (rescale_pt_range lo t 0 (1 # 2) x) as A1.
    pose proof (rescale_pt_range t hi (1 # 2) 1 y) as A2.
    change (Qmin (1 # 2) 1) with (1 # 2) in A2. change (Qmax 0 (1 # 2)) with (1 # 2) in A1. lra.
  - apply rescale_pt_mono; lra.
Qed.

(** * Fold over slices *)

Lemma add_truth_length acc : forall tv mask, length tv = length acc -> length mask = length acc ->
  length (add_truth acc tv mask) = length acc.
Proof. induction acc as [|a acc IH]; intros [|v tv] [|m mask] H1 H2; simpl in *; try discriminate; [reflexivity|]. f_equal. apply IH; lia. Qed.
Lemma add_truth_nth acc : forall tv mask i, length tv = length acc -> length mask = length acc -> (i < length acc)%nat ->
  nth i (add_truth acc tv mask) 0 = if nth i mask true then nth i acc 0 else nth i acc 0 + nth i tv 0.
Proof.
  induction acc as [|a acc IH]; intros [|v tv] [|m mask] i H1 H2 Hi; simpl in *; try discriminate; try lia.
  destruct i as [|i]; [destruct m; reflexivity|]. apply IH; lia.
Qed.

(** Well-shaped slice: data and mask cover the n grid points. *)

Lemma add_slice_ok c : forall tbs accs s accs' n,
  length accs = length tbs -> shaped n s -> Forall (fun a => length a = n) accs ->
  add_slice c tbs accs s = Ok accs' ->
  length accs' = length tbs /\ Forall (fun a => length a = n) accs' /\
  (forall k i, (k < length tbs)%nat -> (i < n)%nat ->
    let '(t, (lo, hi)) := nth k tbs (0, (0, 0)) in
    nth i (nth k accs' []) 0 =
      if nth i (sl_mask s) true then nth i (nth k accs []) 0
      else nth i (nth k accs []) 0 + truth_pt c t lo hi (nth i (sl_data s) 0)).
Proof.
  induction tbs as [|[t [lo hi]] tbs IH]; intros accs s accs' n HL [Hd Hm] HF H; destruct accs as [|a accs];
    simpl in HL; try discriminate.
  - simpl in H. injection H as <-. repeat split; trivial; try constructor. simpl; intros; lia.
  - cbn [add_slice] in H.
    destruct (truth_values c t (lo, hi) (sl_data s)) as [tv|] eqn:Et; [|discriminate]. cbn [bind] in H.
    destruct (add_slice c tbs accs s) as [rest|] eqn:Er; [|discriminate]. cbn [bind] in H. injection H as <-.
    inversion HF as [|? ? Ha HFa]; subst.
    apply truth_values_pt in Et. subst tv.
    destruct (IH accs s rest _ ltac:(lia) (conj eq_refl Hm) HFa Er) as (L1 & L2 & L3).
    split; [simpl; lia|]. split.
    + constructor; [|exact L2]. rewrite add_truth_length; rewrite ?map_length; lia.
    + intros [|k] i Hk Hi; simpl.
      * rewrite add_truth_nth by (rewrite ?map_length; lia).
        destruct (nth i (sl_mask s) true); [reflexivity|].
        rewrite nth_map_lt with (d := 0) by lia. reflexivity.
      * simpl in Hk. apply L3; lia.
Qed.

(** Members at point i. *)
Fixpoint somes {A} (l : list (option A)) : list A :=
  match l with [] => [] | Some x :: r => x :: somes r | None :: r => somes r end.

Lemma add_contrib_nth tot s n i : length tot = n -> shaped n s -> (i < n)%nat ->
  nth i (add_contrib tot s) 0%nat = (nth i tot 0 + length (somes [member i s]))%nat.
Proof.
  intros HL [Hd Hm] Hi. unfold add_contrib. rewrite zipw_nth with (da := 0%nat) (db := true); [|lia|lia].
  unfold member. destruct (nth i (sl_mask s) true); simpl; [|rewrite Nat.add_1_r]; try rewrite Nat.add_0_r; reflexivity.
Qed.
Lemma add_contrib_length tot s n : length tot = n -> shaped n s -> length (add_contrib tot s) = n.
Proof. intros HL [Hd Hm]. unfold add_contrib. rewrite zipw_length; lia. Qed.

Lemma slices_loop_ok c tbs n : forall ss tot accs tot' accs',
  length accs = length tbs -> length tot = n -> Forall (shaped n) ss -> Forall (fun a => length a = n) accs ->
  slices_loop c tbs ss tot accs = Ok (tot', accs') ->
  length accs' = length tbs /\ length tot' = n /\ Forall (fun a => length a = n) accs' /\
  Forall (fun s => sl_nan s = false) ss /\
  (forall i, (i < n)%nat -> nth i tot' 0%nat = (nth i tot 0 + length (somes (map (member i) ss)))%nat) /\
  (forall k i, (k < length tbs)%nat -> (i < n)%nat ->
    let '(t, (lo, hi)) := nth k tbs (0, (0, 0)) in
    nth i (nth k accs' []) 0 ==
      nth i (nth k accs []) 0 + qsum (map (truth_pt c t lo hi) (somes (map (member i) ss)))).
Proof.
  induction ss as [|s ss IH]; intros tot accs tot' accs' HL HT HS HF H.
  - simpl in H. injection H as <- <-. repeat split; trivial.
    intros k i Hk Hi. destruct (nth k tbs _) as [t [lo hi]]. simpl. ring.
  - cbn [slices_loop] in H. destruct (sl_nan s) eqn:En; [discriminate|].
    destruct (add_slice c tbs accs s) as [accs1|] eqn:Ea; [|discriminate]. cbn [bind] in H.
    inversion HS as [|? ? Hs HS']; subst.
    destruct (add_slice_ok c tbs accs s accs1 _ HL Hs HF Ea) as (L1 & L2 & L3).
    destruct (IH (add_contrib tot s) accs1 tot' accs' L1 (add_contrib_length tot s _ eq_refl Hs) HS' L2 H)
      as (M1 & M2 & M3 & M4 & M5 & M6).
    split; [exact M1|]. split; [exact M2|]. split; [exact M3|]. split; [constructor; trivial|]. split.
    + intros i Hi. rewrite M5 by exact Hi. rewrite (add_contrib_nth tot s _ i eq_refl Hs Hi).
      simpl. destruct (member i s); simpl; lia.
    + intros k i Hk Hi. specialize (M6 k i Hk Hi). specialize (L3 k i Hk Hi).
      destruct (nth k tbs _) as [t [lo hi]]. rewrite M6, L3. cbn [map somes].
      assert (Em : member i s = if nth i (sl_mask s) true then None else Some (nth i (sl_data s) 0)) by reflexivity.
      rewrite Em. destruct (nth i (sl_mask s) true); simpl; ring.
Qed.

Lemma nth_repeat_any {A} (x : A) n i : (i < n)%nat -> forall d, nth i (repeat x n) d = x.
Proof. revert i. induction n as [|n IH]; intros [|i] H d; simpl; try lia; [reflexivity|]. apply IH; lia. Qed.

Lemma slices_loop_total c tbs : Forall (fun tb => usable (fst tb) (fst (snd tb)) (snd (snd tb))) tbs ->
  forall ss tot accs, Forall (fun s => sl_nan s = false) ss ->
  exists r, slices_loop c tbs ss tot accs = Ok r.
Proof.
  intro HU. induction ss as [|s ss IH]; intros tot accs HN; [eexists; reflexivity|].
  inversion HN as [|? ? Hn HN']; subst. cbn [slices_loop]. rewrite Hn.
  assert (HA : exists a, add_slice c tbs accs s = Ok a).
  { clear - HU. revert accs. induction HU as [|[t [lo hi]] tbs Hu HU IH]; intros [|a accs]; try (eexists; reflexivity).
    cbn [add_slice]. simpl in Hu. destruct (proj2 (truth_values_ok_iff c t lo hi (sl_data s)) Hu) as [o ->].
    cbn [bind]. destruct (IH accs) as [r ->]. cbn [bind]. eexists; reflexivity. }
  destruct HA as [a ->]. cbn [bind]. apply IH. exact HN'.
Qed.

(** The point-wise mean specification. *)
Definition point_prob (f : Q -> Q) (ms : list (option Q)) : option Q :=
  match somes ms with
  | [] => None
  | vs => Some (qsum (map f vs) / Qlen vs)
  end.

Theorem process_point p n ss out : length (tp_bounds p) = length (tp_thresholds p) -> Forall (shaped n) ss ->
  process p n ss = Ok out ->
  length out = length (tp_thresholds p) /\
  forall k i, (k < length (tp_thresholds p))%nat -> (i < n)%nat ->
    oeq (nth i (nth k out []) None)
        (point_prob (truth_pt (tp_cmp p) (nth k (tp_thresholds p) 0) (fst (nth k (tp_bounds p) (0, 0))) (snd (nth k (tp_bounds p) (0, 0))))
           (map (member i) ss)).
Proof.
  intros HB HS. unfold process. set (tbs := combine (tp_thresholds p) (tp_bounds p)).
  destruct (slices_loop _ tbs ss _ _) as [[tot accs]|] eqn:E; [|discriminate]. cbn [bind].
  intro H. injection H as <-.
  assert (Htl : length tbs = length (tp_thresholds p)) by (unfold tbs; rewrite combine_length; lia).
  assert (R1 : length (map (fun _ : Q * (Q * Q) => repeat 0 n) tbs) = length tbs) by apply map_length.
  assert (R2 : Forall (fun a => length a = n) (map (fun _ : Q * (Q * Q) => repeat 0 n) tbs)).
  { apply Forall_forall. intros a Ha. apply in_map_iff in Ha as (x & <- & _). apply repeat_length. }
  destruct (slices_loop_ok (tp_cmp p) tbs n ss _ _ tot accs R1 (repeat_length _ _) HS R2 E) as (M1 & M2 & M3 & M4 & M5 & M6).
  - rewrite map_length. split; [lia|]. intros k i Hk Hi.
    rewrite nth_map_lt with (d := []) by lia.
    assert (Hal : length (nth k accs []) = n).
    { rewrite Forall_forall in M3. apply M3. apply nth_In. lia. }
    unfold finish. rewrite zipw_nth with (da := 0%nat) (db := 0); [|lia|lia].
    rewrite M5 by exact Hi. rewrite nth_repeat_any by exact Hi.
    specialize (M6 k i ltac:(lia) Hi). unfold tbs in M6 at 1.
    rewrite combine_nth in M6 by lia. destruct (nth k (tp_bounds p) (0, 0)) as [lo hi] eqn:Eb.
    rewrite nth_map_lt with (d := (0, (0, 0))) in M6 by (fold tbs; lia).
    rewrite nth_repeat_any in M6 by exact Hi.
    unfold point_prob. simpl fst; simpl snd. simpl Nat.add.
    destruct (somes (map (member i) ss)) as [|v vs] eqn:Ev; [exact I|].
    simpl length. cbn [oeq]. rewrite M6. change (Qn (S (length vs))) with (Qlen (v :: vs)).
    apply Qdiv_comp; [ring|reflexivity].
Qed.

(** Monotonicity in threshold, for deterministic thresholds. *)
Lemma mean_le (f g : Q -> Q) ms a b : (forall x, f x <= g x) ->
  point_prob f ms = Some a -> point_prob g ms = Some b -> a <= b.
Proof.
  unfold point_prob. intros H. destruct (somes ms) as [|v vs]; [discriminate|].
  intros Ha Hb. injection Ha as <-. injection Hb as <-.
  assert (0 < Qlen (v :: vs)) by (apply Qlen_pos; discriminate).
  assert (qsum (map f (v :: vs)) <= qsum (map g (v :: vs))) by (apply qsum_map_le; auto).
  apply Qle_shift_div_l; [exact H0|]. rewrite Qmult_comm, Qmult_div_r by lra. exact H1.
Qed.

Lemma somes_perm {A} (l m : list (option A)) : Permutation l m -> Permutation (somes l) (somes m).
Proof.
  induction 1 as [|x l m H IH|x y l|l m n H1 IH1 H2 IH2]; simpl.
  - constructor.
  - destruct x; [constructor|]; exact IH.
  - destruct x, y; try constructor; reflexivity.
  - etransitivity; eauto.
Qed.
Lemma point_prob_perm f l m : Permutation l m -> oeq (point_prob f l) (point_prob f m).
Proof.
  intro H. apply somes_perm in H. unfold point_prob.
  destruct (somes l) as [|v vs], (somes m) as [|w ws]; simpl; trivial.
  - apply Permutation_nil in H. discriminate.
  - symmetry in H. apply Permutation_nil in H. discriminate.
  - assert (E1 : qsum (map f (v :: vs)) == qsum (map f (w :: ws))) by (apply qsum_perm, Permutation_map, H).
    assert (E2 : Qlen (v :: vs) = Qlen (w :: ws)) by (unfold Qlen; rewrite (Permutation_length H); reflexivity).
    rewrite E2. simpl in E1. rewrite E1. reflexivity.
Qed.

(** * Constructor *)
Lemma check_bounds_ok ts : forall bs out, length bs = length ts -> check_bounds ts bs = Ok out ->
  length out = length ts /\
  (forall k, (k < length ts)%nat -> fst (nth k out (0,0)) <= nth k ts 0 <= snd (nth k out (0,0)) /\
      nth k bs [] = [fst (nth k out (0,0)); snd (nth k out (0,0))]).
Proof.
  induction ts as [|t ts IH]; intros [|b bs] out HL H; simpl in HL; try discriminate.
  - simpl in H. injection H as <-. split; [reflexivity|]. simpl; intros; lia.
  - simpl in H. destruct b as [|lo [|hi [|]]]; try discriminate.
    destruct (Qltb_spec t lo); [discriminate|]. destruct (Qltb_spec hi t); [discriminate|]. cbn [orb] in H.
    destruct (check_bounds ts bs) as [r|] eqn:E; [|discriminate]. cbn [bind] in H. injection H as <-.
    destruct (IH bs r ltac:(lia) E) as [L1 L2]. split; [simpl; lia|].
    intros [|k] Hk; simpl; [split; [lra|reflexivity]|]. apply L2. simpl in Hk; lia.
Qed.
Lemma config_loop_len cfg : forall ts b ts' b', (match b with Some l => length l = length ts | None => True end) ->
  config_loop cfg ts b = Ok (ts', b') -> (match b' with Some l => length l = length ts' | None => True end).
Proof.
  induction cfg as [|[t [bs|]] cfg IH]; intros ts b ts' b' HL H; simpl in H.
  - injection H as <- <-. exact HL.
  - destruct b as [l|]; [|discriminate]. apply IH in H; trivial. rewrite !app_length. simpl. lia.
  - apply IH in H; trivial.
Qed.
Lemma set_thresholds_len tv cfg ts b : set_thresholds tv cfg = Ok (ts, Some b) -> length b = length ts.
Proof.
  unfold set_thresholds. destruct cfg as [[|c cfg]|].
  - destruct tv; discriminate || (intro H; injection H; discriminate).
  - intro H. apply (config_loop_len _ _ _ _ _) in H; trivial.
  - destruct tv; discriminate || (intro H; injection H; discriminate).
Qed.

Lemma gen_bounds_1 t : fst (gen_bounds 1 t) == t /\ snd (gen_bounds 1 t) == t.
Proof. unfold gen_bounds. destruct (t <? 0); simpl; split; lra. Qed.
Lemma gen_bounds_strict ff t : 0 < ff -> ff < 1 -> ~ t == 0 -> fst (gen_bounds ff t) < t < snd (gen_bounds ff t).
Proof. intros H1 H2 H3. unfold gen_bounds. destruct (Qltb_spec t 0); simpl; split; try nra; assert (0 < t) by lra; nra. Qed.

Lemma init_inv tv cfg ff op col p : threshold_init tv cfg ff op col = Ok p ->
  length (tp_bounds p) = length (tp_thresholds p) /\
  cmp_lookup op = Some (tp_cmp p) /\ tp_collapse p = col /\
  (forall k, (k < length (tp_thresholds p))%nat ->
     fst (nth k (tp_bounds p) (0,0)) <= nth k (tp_thresholds p) 0 <= snd (nth k (tp_bounds p) (0,0))) /\
  (forall f, ff = Some f -> 0 < f < 1 /\ forall k, (k < length (tp_thresholds p))%nat ->
     fst (nth k (tp_bounds p) (0,0)) < nth k (tp_thresholds p) 0 < snd (nth k (tp_bounds p) (0,0))) /\
  (cfg = None -> ff = None -> forall k, (k < length (tp_thresholds p))%nat ->
     fst (nth k (tp_bounds p) (0,0)) == snd (nth k (tp_bounds p) (0,0))).
Proof.
  unfold threshold_init. destruct (_ && tv_truthy tv); [discriminate|].
  assert (G : forall (r : result threshold_plugin), (match cfg, tv with None, TVnone => Err ValueError | _, _ => r end) = Ok p -> r = Ok p).
  { intro r. destruct cfg, tv; intro; discriminate || assumption. }
  intro H. apply G in H. clear G.
  destruct (set_thresholds tv cfg) as [[ts fb]|] eqn:Es; [|discriminate]. cbn [bind] in H.
  assert (HN : cfg = None -> fb = None).
  { intros ->. unfold set_thresholds in Es. destruct tv; try discriminate; injection Es; auto. }
  destruct fb as [bs|].
  - destruct ff as [f|]; [discriminate|]. cbn [bind] in H.
    destruct (check_bounds ts bs) as [bounds|] eqn:Ec; [|discriminate]. cbn [bind] in H.
    destruct (cmp_lookup op) as [c|]; [|discriminate].
    assert (H' : Ok {| tp_thresholds := ts; tp_bounds := bounds; tp_cmp := c; tp_collapse := col |} = Ok p) by (destruct col; trivial; discriminate).
    injection H' as <-. simpl. apply set_thresholds_len in Es.
    destruct (check_bounds_ok ts bs bounds Es Ec) as [L1 L2].
    repeat split; trivial; try (intros; apply L2; trivial); try discriminate.
    intros Hc. specialize (HN Hc). discriminate.
  - match type of H with bind ?r _ = _ => destruct r as [ffl|] eqn:Ef end; [|discriminate]. cbn [bind] in H.
    destruct (cmp_lookup op) as [c|]; [|discriminate].
    assert (H' : Ok {| tp_thresholds := ts; tp_bounds := map (gen_bounds ffl) ts; tp_cmp := c; tp_collapse := col |} = Ok p) by (destruct col; trivial; discriminate).
    injection H' as <-. simpl. rewrite map_length.
    assert (HK : forall k, (k < length ts)%nat -> nth k (map (gen_bounds ffl) ts) (0,0) = gen_bounds ffl (nth k ts 0)).
    { intros k Hk. apply nth_map_lt. exact Hk. }
    destruct ff as [f|].
    + destruct (Qltb_spec 0 f); [|discriminate]. destruct (Qltb_spec f 1); [|discriminate]. cbn [andb negb] in Ef.
      destruct (existsb (fun t => t =? 0) ts) eqn:Ee; [discriminate|]. injection Ef as <-.
      assert (HZ : forall k, (k < length ts)%nat -> ~ nth k ts 0 == 0).
      { intros k Hk Hz. assert (existsb (fun t => t =? 0) ts = true); [|congruence].
        apply existsb_exists. exists (nth k ts 0). split; [apply nth_In; exact Hk|]. apply Qeqb_eq; exact Hz. }
      assert (HS : forall k, (k < length ts)%nat -> fst (nth k (map (gen_bounds f) ts) (0,0)) < nth k ts 0 < snd (nth k (map (gen_bounds f) ts) (0,0))).
      { intros k Hk. rewrite HK by exact Hk. apply gen_bounds_strict; auto. }
      split; [reflexivity|]. split; [reflexivity|]. split; [reflexivity|]. split; [|split].
      * intros k Hk. specialize (HS k Hk). lra.
      * intros f' E. injection E as <-. split; [lra|exact HS].
      * discriminate.
    + injection Ef as <-.
      split; [reflexivity|]. split; [reflexivity|]. split; [reflexivity|]. split; [|split].
      * intros k Hk. rewrite HK by exact Hk. destruct (gen_bounds_1 (nth k ts 0)). lra.
      * discriminate.
      * intros _ _ k Hk. rewrite HK by exact Hk. destruct (gen_bounds_1 (nth k ts 0)). lra.
Qed.

(** * Agreement with the independent specification *)

Lemma cmp_fun_holds c x t : cmp_fun c x t = true <-> holds c x t.
Proof. destruct c; simpl; [apply Qleb_le|apply Qltb_lt|apply Qleb_le|apply Qltb_lt]. Qed.
Lemma is_less_above c : is_less c = negb (above c).
Proof. destruct c; reflexivity. Qed.

Lemma above_ramp t lo hi x : lo < t < hi -> above_pt t lo hi x == ramp lo t hi x.
Proof.
  intros [H1 H2]. unfold above_pt, ramp.
  destruct (Qleb_spec x lo) as [Hl|Hl].
  - destruct (Qltb_spec x t); [|lra]. apply ramp_low; trivial.
  - destruct (Qleb_spec x t) as [Ht|Ht].
    + destruct (Qltb_spec x t) as [Hlt|Hge].
      * rewrite rescale_pt_clip_noop; [|lra|qmm; lra]. unfold rescale_pt. field. lra.
      * assert (E : x == t) by lra. rewrite (rescale_pt_comp t hi (1#2) 1 true x t E).
        rewrite rescale_pt_lo by lra. rewrite E. field. lra.
    + destruct (Qltb_spec x t); [lra|]. destruct (Qleb_spec x hi) as [Hh|Hh].
      * rewrite rescale_pt_clip_noop; [|lra|qmm; lra]. unfold rescale_pt. field. lra.
      * apply ramp_high; lra.
Qed.

Lemma truth_pt_is c t lo hi x : lo <= t <= hi -> usable t lo hi -> truth_is c t lo hi x (truth_pt c t lo hi x).
Proof.
  intros Hb Hu. unfold truth_is, truth_pt. destruct (Qeqb_spec lo hi) as [E|E].
  - left. split; [exact E|]. destruct (cmp_fun c x t) eqn:Ec.
    + left. apply cmp_fun_holds in Ec. split; [exact Ec|reflexivity].
    + right. split; [|reflexivity]. intro H. apply cmp_fun_holds in H. congruence.
  - right. destruct Hu as [Hu|[Hu1 Hu2]]; [contradiction|]. split; [lra|].
    change (if x <? t then rescale_pt lo t 0 (1 # 2) true x else rescale_pt t hi (1 # 2) 1 true x) with (above_pt t lo hi x).
    rewrite is_less_above. destruct (above c); simpl; rewrite above_ramp by lra; reflexivity.
Qed.

Lemma truth_values_spec c t lo hi data out : lo <= t <= hi ->
  truth_values c t (lo, hi) data = Ok out -> Forall2 (truth_is c t lo hi) data out.
Proof.
  intros Hb H. assert (Hu : usable t lo hi) by (apply (truth_values_ok_iff c t lo hi data); eauto).
  apply truth_values_pt in H as ->. induction data as [|x data IH]; constructor; trivial.
  apply truth_pt_is; trivial.
Qed.
Lemma truth_values_unit c t lo hi data out :
  truth_values c t (lo, hi) data = Ok out -> length out = length data /\ Forall (fun v => 0 <= v <= 1) out.
Proof.
  intros H. apply truth_values_pt in H as ->. rewrite map_length. split; [reflexivity|].
  apply Forall_forall. intros v Hv. apply in_map_iff in Hv as (x & <- & _). apply truth_pt_range.
Qed.
Lemma truth_values_crisp c t b data out x v :
  truth_values c t (b, b) data = Ok out -> In (x, v) (combine data out) ->
  (holds c x t -> v = 1) /\ (~ holds c x t -> v = 0).
Proof.
  intros H. apply truth_values_pt in H as ->. intro Hin.
  assert (v = truth_pt c t b b x).
  { clear - Hin. induction data as [|y data IH]; simpl in Hin; [easy|].
    destruct Hin as [E|Hin]; [injection E as <- <-; reflexivity|auto]. }
  subst v. unfold truth_pt. destruct (Qeqb_spec b b) as [_|N]; [|exfalso; apply N; reflexivity].
  destruct (cmp_fun c x t) eqn:E; split; intro H; trivial.
  - exfalso. apply H. apply cmp_fun_holds; exact E.
  - apply cmp_fun_holds in H. congruence.
Qed.

(** Ramp facts, on the specification. *)
Lemma ramp_range lo t hi x : lo < t < hi -> 0 <= ramp lo t hi x <= 1.
Proof.
  intros H. rewrite <- above_ramp by exact H. pose proof (truth_pt_range GE t lo hi x) as R.
  unfold truth_pt in R. destruct (Qeqb_spec lo hi); [lra|]. exact R.
Qed.
Lemma ramp_mono lo t hi x y : lo < t < hi -> x <= y -> ramp lo t hi x <= ramp lo t hi y.
Proof. intros H Hxy. rewrite <- !above_ramp by exact H. apply above_mono; trivial. Qed.
Lemma ramp_points lo t hi : lo < t < hi ->
  (forall x, x <= lo -> ramp lo t hi x == 0) /\ ramp lo t hi t == 1 # 2 /\ (forall x, hi <= x -> ramp lo t hi x == 1).
Proof.
  intros [H1 H2]. unfold ramp. split; [|split].
  - intros x Hx. destruct (Qleb_spec x lo); [reflexivity|lra].
  - destruct (Qleb_spec t lo); [lra|]. destruct (Qleb_spec t t); [|lra]. field. lra.
  - intros x Hx. destruct (Qleb_spec x lo); [lra|]. destruct (Qleb_spec x t); [lra|].
    destruct (Qleb_spec x hi); [|reflexivity]. assert (E : x == hi) by lra. rewrite E. field. lra.
Qed.
Lemma ratio_param x a b a' b' : a <= a' -> b <= b' -> a' < x -> x <= b -> a' < b' -> a < b ->
  (x - a') / (2 * (b' - a')) <= (x - a) / (2 * (b - a)).
Proof.
  intros. apply Qle_shift_div_l; [lra|].
  assert (E : (x - a') / (2 * (b' - a')) * (2 * (b - a)) == (x - a') * (b - a) / (b' - a')) by (field; lra).
  rewrite E. apply Qle_shift_div_r; [lra|]. nra.
Qed.
Lemma ratio_param2 x a b a' b' : a <= a' -> b <= b' -> a' < x -> x <= b -> a' < b' -> a < b ->
  (1#2) + (x - a') / (2 * (b' - a')) <= (1#2) + (x - a) / (2 * (b - a)).
Proof. intros. pose proof (ratio_param x a b a' b'). lra. Qed.
(** Raising all three parameters lowers the exceedance. *)
Lemma ramp_param lo t hi lo' t' hi' x : lo < t < hi -> lo' < t' < hi' ->
  lo <= lo' -> t <= t' -> hi <= hi' -> ramp lo' t' hi' x <= ramp lo t hi x.
Proof.
  intros H H' L1 L2 L3. pose proof (ramp_range lo t hi x H) as R. pose proof (ramp_range lo' t' hi' x H') as R'.
  destruct H as [Ha Hb], H' as [Ha' Hb'].
  unfold ramp in *. destruct (Qleb_spec x lo') as [|G1]; [lra|].
  destruct (Qleb_spec x lo); [lra|].
  destruct (Qleb_spec x t') as [G2|G2].
  - destruct (Qleb_spec x t).
    + apply ratio_param; lra.
    + assert ((x - lo') / (2 * (t' - lo')) <= 1 # 2) by (apply Qle_shift_div_r; lra).
      destruct (Qleb_spec x hi); [|lra].
      assert (0 <= (x - t) / (2 * (hi - t))) by (apply Qle_shift_div_l; lra). lra.
  - destruct (Qleb_spec x t); [lra|].
    destruct (Qleb_spec x hi').
    + destruct (Qleb_spec x hi); [apply ratio_param2; lra|lra].
    + destruct (Qleb_spec x hi); [lra|lra].
Qed.
Lemma somes_unmasked ms : somes ms = unmasked ms.
Proof. induction ms as [|[x|] ms IH]; simpl; congruence. Qed.
Lemma point_prob_mean f (truth : Q -> Q -> Prop) ms o : (forall x, In x (unmasked ms) -> truth x (f x)) ->
  oeq o (point_prob f ms) -> mean_of truth ms o.
Proof.
  unfold point_prob. rewrite somes_unmasked. intros HT HO.
  destruct (unmasked ms) as [|v vs] eqn:E.
  - destruct o; [contradiction|]. exact E.
  - destruct o as [p|]; [|contradiction]. unfold mean_of. rewrite E. split; [discriminate|].
    exists (map f (v :: vs)). split.
    + clear - HT. induction (v :: vs) as [|y l IH]; constructor; [apply HT; simpl; auto|].
      apply IH. intros; apply HT; simpl; auto.
    + cbn [oeq] in HO. rewrite HO. apply Qdiv_comp; [reflexivity|]. unfold Qlen. rewrite map_length. reflexivity.
Qed.


Lemma slices_usable c tbs ss : forall tot accs r, length accs = length tbs -> ss <> [] ->
  slices_loop c tbs ss tot accs = Ok r ->
  Forall (fun tb => usable (fst tb) (fst (snd tb)) (snd (snd tb))) tbs.
Proof.
  destruct ss as [|s ss]; [easy|]. intros tot accs r HL _ H. cbn [slices_loop] in H.
  destruct (sl_nan s); [discriminate|]. destruct (add_slice c tbs accs s) as [a|] eqn:E; [|discriminate].
  clear H. revert accs a HL E. induction tbs as [|[t [lo hi]] tbs IH]; intros accs a HL E; constructor.
  - destruct accs as [|a0 accs]; [discriminate HL|]. cbn [add_slice] in E.
    destruct (truth_values c t (lo, hi) (sl_data s)) eqn:Et; [|discriminate].
    simpl. apply (truth_values_ok_iff c t lo hi (sl_data s)). eauto.
  - destruct accs as [|a0 accs]; [discriminate HL|]. cbn [add_slice] in E.
    destruct (truth_values c t (lo, hi) (sl_data s)); [|discriminate]. cbn [bind] in E.
    destruct (add_slice c tbs accs s) as [a'|] eqn:E'; [|discriminate].
    apply (IH accs a'); trivial. simpl in HL; lia.
Qed.

Lemma process_usable p n ss out : length (tp_bounds p) = length (tp_thresholds p) -> ss <> [] ->
  process p n ss = Ok out ->
  forall k, (k < length (tp_thresholds p))%nat ->
    usable (nth k (tp_thresholds p) 0) (fst (nth k (tp_bounds p) (0, 0))) (snd (nth k (tp_bounds p) (0, 0))).
Proof.
  intros HB HS. unfold process.
  destruct (slices_loop _ _ ss _ _) as [[tot accs]|] eqn:E; [|discriminate]. intros _ k Hk.
  apply slices_usable in E; [|rewrite map_length; reflexivity|exact HS].
  rewrite Forall_forall in E.
  specialize (E (nth k (combine (tp_thresholds p) (tp_bounds p)) (0, (0, 0)))).
  rewrite combine_nth in E by lia. apply E. rewrite <- combine_nth by lia. apply nth_In. rewrite combine_length; lia.
Qed.

Theorem process_mean p n ss out k i : well_formed p -> Forall (shaped n) ss -> ss <> [] ->
  process p n ss = Ok out -> (k < length (tp_thresholds p))%nat -> (i < n)%nat ->
  mean_of (truth_is (tp_cmp p) (nth k (tp_thresholds p) 0)
             (fst (nth k (tp_bounds p) (0, 0))) (snd (nth k (tp_bounds p) (0, 0))))
          (map (member i) ss) (nth i (nth k out []) None).
Proof.
  intros [W1 W2] HS HN H Hk Hi.
  pose proof (process_usable p n ss out W1 HN H k Hk) as HU.
  destruct (process_point p n ss out W1 HS H) as [_ HP]. specialize (HP k i Hk Hi).
  eapply point_prob_mean; [|exact HP]. intros x _. apply truth_pt_is; auto.
Qed.

Lemma oeq_trans a b c : oeq a b -> oeq b c -> oeq a c.
Proof. destruct a, b, c; simpl; trivial; try contradiction. intros; etransitivity; eauto. Qed.
Lemma oeq_sym a b : oeq a b -> oeq b a.
Proof. destruct a, b; simpl; trivial. intros; symmetry; trivial. Qed.

Lemma process_nil p n : length (tp_bounds p) = length (tp_thresholds p) -> exists out, process p n [] = Ok out.
Proof. intros. eexists; reflexivity. Qed.

Theorem process_perm p n ss ss' out out' k i : length (tp_bounds p) = length (tp_thresholds p) ->
  Forall (shaped n) ss -> Permutation ss ss' ->
  process p n ss = Ok out -> process p n ss' = Ok out' ->
  (k < length (tp_thresholds p))%nat -> (i < n)%nat ->
  oeq (nth i (nth k out []) None) (nth i (nth k out' []) None).
Proof.
  intros W HS HP H H' Hk Hi.
  assert (HS' : Forall (shaped n) ss').
  { rewrite Forall_forall in *. intros s Hs. apply HS. apply (Permutation_in s (Permutation_sym HP)). exact Hs. }
  destruct (process_point p n ss out W HS H) as [_ P1]. destruct (process_point p n ss' out' W HS' H') as [_ P2].
  specialize (P1 k i Hk Hi). specialize (P2 k i Hk Hi).
  eapply oeq_trans; [exact P1|]. eapply oeq_trans; [|apply oeq_sym; exact P2].
  apply point_prob_perm, Permutation_map, HP.
Qed.

Lemma slices_loop_ok_nan c tbs ss : forall tot accs r, slices_loop c tbs ss tot accs = Ok r -> Forall (fun s => sl_nan s = false) ss.
Proof.
  induction ss as [|s ss IH]; intros tot accs r H; [constructor|]. cbn [slices_loop] in H.
  destruct (sl_nan s) eqn:E; [discriminate|]. destruct (add_slice c tbs accs s); [|discriminate].
  constructor; [exact E|]. eapply IH; eauto.
Qed.

(** process raises or succeeds independently of the order too. *)
Theorem process_ok_iff p n ss : length (tp_bounds p) = length (tp_thresholds p) -> ss <> [] ->
  (exists out, process p n ss = Ok out) <->
  (Forall (fun s => sl_nan s = false) ss /\
   forall k, (k < length (tp_thresholds p))%nat ->
     usable (nth k (tp_thresholds p) 0) (fst (nth k (tp_bounds p) (0, 0))) (snd (nth k (tp_bounds p) (0, 0)))).
Proof.
  intros W HN. split.
  - intros [out H]. split; [|eapply process_usable; eauto].
    unfold process in H. destruct (slices_loop _ _ ss _ _) eqn:E; [|discriminate]. eapply slices_loop_ok_nan; eauto.
  - intros [H1 H2]. unfold process.
    destruct (slices_loop_total (tp_cmp p) (combine (tp_thresholds p) (tp_bounds p))) with (ss := ss)
      (tot := repeat 0%nat n) (accs := map (fun _ : Q * (Q * Q) => repeat 0 n) (combine (tp_thresholds p) (tp_bounds p))) as [[a b] E]; trivial.
    + apply Forall_forall. intros tb Htb. apply (In_nth _ _ (0, (0, 0))) in Htb as (k & Hk & <-).
      rewrite combine_length in Hk. rewrite combine_nth by lia. apply H2. lia.
    + rewrite E. cbn [bind]. eexists; reflexivity.
Qed.

(** Monotone in threshold. *)
Definition params (p : threshold_plugin) (k : nat) : Q * Q * Q :=
  (nth k (tp_thresholds p) 0, fst (nth k (tp_bounds p) (0, 0)), snd (nth k (tp_bounds p) (0, 0))).

Lemma truth_pt_crisp_mono c t t' b b' x : t <= t' ->
  if above c then truth_pt c t' b' b' x <= truth_pt c t b b x
  else truth_pt c t b b x <= truth_pt c t' b' b' x.
Proof.
  intro H. unfold truth_pt.
  destruct (Qeqb_spec b b) as [_|N]; [|exfalso; apply N; reflexivity].
  destruct (Qeqb_spec b' b') as [_|N]; [|exfalso; apply N; reflexivity].
  destruct c; simpl; qbs; lra.
Qed.
Lemma truth_pt_crisp_eq c t lo hi x : lo == hi -> truth_pt c t lo hi x = truth_pt c t lo lo x.
Proof.
  intro E. unfold truth_pt. destruct (Qeqb_spec lo hi); [|contradiction].
  destruct (Qeqb_spec lo lo) as [_|N]; [reflexivity|exfalso; apply N; reflexivity].
Qed.
Lemma truth_pt_mono_t c t lo hi t' lo' hi' x : lo <= t <= hi -> lo' <= t' <= hi' ->
  (lo == hi /\ lo' == hi') \/ (lo < t < hi /\ lo' < t' < hi' /\ lo <= lo' /\ hi <= hi') -> t <= t' ->
  if above c then truth_pt c t' lo' hi' x <= truth_pt c t lo hi x
  else truth_pt c t lo hi x <= truth_pt c t' lo' hi' x.
Proof.
  intros B B' [[E E']|(S & S' & L & L')] H.
  - rewrite (truth_pt_crisp_eq c t lo hi x E), (truth_pt_crisp_eq c t' lo' hi' x E').
    apply truth_pt_crisp_mono; exact H.
  - pose proof (ramp_param lo t hi lo' t' hi' x S S' L H L') as R.
    unfold truth_pt. destruct (Qeqb_spec lo hi); [lra|]. destruct (Qeqb_spec lo' hi'); [lra|].
    change (if x <? t then rescale_pt lo t 0 (1 # 2) true x else rescale_pt t hi (1 # 2) 1 true x) with (above_pt t lo hi x).
    change (if x <? t' then rescale_pt lo' t' 0 (1 # 2) true x else rescale_pt t' hi' (1 # 2) 1 true x) with (above_pt t' lo' hi' x).
    rewrite <- !above_ramp in R by trivial. rewrite is_less_above. destruct (above c); simpl; lra.
Qed.

Theorem process_monotone p n ss out k k' i a a' : well_formed p -> Forall (shaped n) ss ->
  process p n ss = Ok out -> (k < length (tp_thresholds p))%nat -> (k' < length (tp_thresholds p))%nat -> (i < n)%nat ->
  nth k (tp_thresholds p) 0 <= nth k' (tp_thresholds p) 0 ->
  (let '(t, lo, hi) := params p k in let '(t', lo', hi') := params p k' in
   (lo == hi /\ lo' == hi') \/ (lo < t < hi /\ lo' < t' < hi' /\ lo <= lo' /\ hi <= hi')) ->
  nth i (nth k out []) None = Some a -> nth i (nth k' out []) None = Some a' ->
  if above (tp_cmp p) then a' <= a else a <= a'.
Proof.
  intros [W1 W2] HS H Hk Hk' Hi Ht HP Ea Ea'. cbn [params] in HP.
  destruct (process_point p n ss out W1 HS H) as [_ P1].
  pose proof (P1 k i Hk Hi) as Q1. pose proof (P1 k' i Hk' Hi) as Q2. rewrite Ea in Q1. rewrite Ea' in Q2.
  match type of Q1 with oeq _ (point_prob ?f _) => set (F := f) in * end.
  match type of Q2 with oeq _ (point_prob ?f _) => set (F' := f) in * end.
  destruct (point_prob F _) as [b|] eqn:E1; [|contradiction].
  destruct (point_prob F' _) as [b'|] eqn:E2; [|contradiction]. cbn [oeq] in Q1, Q2.
  assert (HF : forall x, if above (tp_cmp p) then F' x <= F x else F x <= F' x).
  { intro x. apply truth_pt_mono_t; auto. }
  destruct (above (tp_cmp p)).
  - rewrite Q1, Q2. eapply mean_le; [|exact E2|exact E1]. exact HF.
  - rewrite Q1, Q2. eapply mean_le; [|exact E1|exact E2]. exact HF.
Qed.
Lemma gen_bounds_mono ff t t' : 0 < ff < 1 -> t <= t' ->
  fst (gen_bounds ff t) <= fst (gen_bounds ff t') /\ snd (gen_bounds ff t) <= snd (gen_bounds ff t').
Proof. intros [H1 H2] H. unfold gen_bounds. destruct (Qltb_spec t 0), (Qltb_spec t' 0); simpl; split; nra. Qed.

(** * Statements from the constructor *)
Lemma init_wf tv cfg ff op col p : threshold_init tv cfg ff op col = Ok p -> well_formed p.
Proof. intro H. destruct (init_inv _ _ _ _ _ _ H) as (A & _ & _ & B & _ & _). split; trivial. Qed.

Lemma init_bounds_mono tv cfg f op col p k k' : threshold_init tv cfg (Some f) op col = Ok p ->
  (k < length (tp_thresholds p))%nat -> (k' < length (tp_thresholds p))%nat ->
  nth k (tp_thresholds p) 0 <= nth k' (tp_thresholds p) 0 ->
  fst (nth k (tp_bounds p) (0,0)) <= fst (nth k' (tp_bounds p) (0,0)) /\
  snd (nth k (tp_bounds p) (0,0)) <= snd (nth k' (tp_bounds p) (0,0)).
Proof.
  intros H Hk Hk' Ht.
  assert (HB : 0 < f < 1 /\ tp_bounds p = map (gen_bounds f) (tp_thresholds p)).
  { destruct (init_inv _ _ _ _ _ _ H) as (_ & _ & _ & _ & Hf & _). split; [apply (Hf f eq_refl)|].
    unfold threshold_init in H. destruct (_ && tv_truthy tv); [discriminate|].
    assert (G : forall (r : result threshold_plugin), (match cfg, tv with None, TVnone => Err ValueError | _, _ => r end) = Ok p -> r = Ok p).
    { intro r. destruct cfg, tv; intro; discriminate || assumption. }
    apply G in H. clear G. destruct (set_thresholds tv cfg) as [[ts fb]|] eqn:Es; [|discriminate]. cbn [bind] in H.
    destruct fb; [discriminate|]. destruct (negb _); [discriminate|]. destruct (existsb _ ts); [discriminate|].
    cbn [bind] in H. destruct (cmp_lookup op); [|discriminate]. destruct col; try discriminate; injection H as <-; reflexivity. }
  destruct HB as [Hf ->]. rewrite !nth_map_lt with (d := 0) by trivial. apply gen_bounds_mono; trivial.
Qed.

Theorem init_monotone tv cfg ff op col p n ss out k k' i a a' :
  threshold_init tv cfg ff op col = Ok p -> (cfg = None \/ exists f, ff = Some f) -> Forall (shaped n) ss ->
  process p n ss = Ok out -> (k < length (tp_thresholds p))%nat -> (k' < length (tp_thresholds p))%nat -> (i < n)%nat ->
  nth k (tp_thresholds p) 0 <= nth k' (tp_thresholds p) 0 ->
  nth i (nth k out []) None = Some a -> nth i (nth k' out []) None = Some a' ->
  if above (tp_cmp p) then a' <= a else a <= a'.
Proof.
  intros HI HC HS H Hk Hk' Hi Ht Ea Ea'.
  destruct (init_inv _ _ _ _ _ _ HI) as (A & _ & _ & B & C & D).
  apply (process_monotone p n ss out k k' i a a'); trivial; [split; trivial|]. cbn [params].
  destruct ff as [f|].
  - right. destruct (C f eq_refl) as [_ C']. destruct (init_bounds_mono _ _ _ _ _ _ k k' HI Hk Hk' Ht).
    pose proof (C' k Hk). pose proof (C' k' Hk'). tauto.
  - left. destruct HC as [HC|[f HC]]; [|discriminate]. split; apply D; trivial.
Qed.

(** Rejections. *)
Lemma check_bounds_reject ts : forall bs k, length bs = length ts -> (k < length ts)%nat ->
  (forall lo hi, nth k bs [] = [lo; hi] -> ~ (lo <= nth k ts 0 <= hi)) ->
  check_bounds ts bs = Err ValueError.
Proof.
  induction ts as [|t ts IH]; intros [|b bs] k HL Hk H; simpl in *; try lia.
  destruct b as [|lo [|hi [|]]]; try reflexivity.
  destruct (Qltb_spec t lo); [reflexivity|]. destruct (Qltb_spec hi t); [reflexivity|]. cbn [orb].
  destruct k as [|k]; simpl in H; [exfalso; apply (H lo hi eq_refl); lra|].
  rewrite (IH bs k); [reflexivity|lia|lia|exact H].
Qed.
Definition all_bounded (l : list (Q * list Q)) : tconfig := map (fun tb => (fst tb, Some (snd tb))) l.
Lemma config_loop_bounded l : forall ts bs,
  config_loop (all_bounded l) ts (Some bs) = Ok (ts ++ map fst l, Some (bs ++ map snd l)).
Proof.
  induction l as [|[t b] l IH]; intros ts bs; simpl; [rewrite !app_nil_r; reflexivity|].
  rewrite IH, <- !app_assoc. reflexivity.
Qed.
Lemma init_reject_bounds l k ff op col : (k < length l)%nat ->
  (forall lo hi, snd (nth k l (0, [])) = [lo; hi] -> ~ (lo <= fst (nth k l (0, [])) <= hi)) ->
  threshold_init TVnone (Some (all_bounded l)) ff op col = Err ValueError.
Proof.
  intros Hk H. unfold threshold_init, tv_truthy. rewrite andb_false_r.
  destruct l as [|e l]; [simpl in Hk; lia|]. set (L := e :: l) in *.
  assert (ES : set_thresholds TVnone (Some (all_bounded L)) = Ok (map fst L, Some (map snd L))).
  { unfold set_thresholds, L, all_bounded. simpl map at 1. cbn [map fst snd]. apply (config_loop_bounded (e :: l) [] []). }
  rewrite ES. cbn [bind]. destruct ff; [reflexivity|]. cbn [bind].
  rewrite (check_bounds_reject (map fst L) (map snd L) k); [reflexivity|rewrite !map_length; reflexivity|rewrite map_length; exact Hk|].
  intros lo hi E. rewrite nth_map_lt with (d := (0, [])) in E by exact Hk.
  rewrite nth_map_lt with (d := (0, [])) by exact Hk. apply H; exact E.
Qed.
Lemma init_reject_factor ts f op col :
  (~ (0 < f < 1) \/ Exists (fun t => t == 0) ts) ->
  threshold_init (TVlist ts) None (Some f) op col = Err ValueError.
Proof.
  intro H. unfold threshold_init. cbn [andb set_thresholds bind].
  destruct (Qltb_spec 0 f); [|reflexivity]. destruct (Qltb_spec f 1); [|reflexivity]. cbn [andb negb].
  assert (E : existsb (fun t => t =? 0) ts = true).
  { destruct H as [H|H]; [lra|]. apply existsb_exists. apply Exists_exists in H as (x & Hx & Ex).
    exists x. split; [exact Hx|]. apply Qeqb_eq; exact Ex. }
  rewrite E. reflexivity.
Qed.
Lemma init_reject_both tv cfg ff op col : cfg <> [] -> tv_truthy tv = true ->
  threshold_init tv (Some cfg) ff op col = Err ValueError.
Proof. intros H E. unfold threshold_init. rewrite E. destruct cfg; [easy|]. reflexivity. Qed.
Lemma init_reject_bounds_factor l f op col : l <> [] ->
  threshold_init TVnone (Some (all_bounded l)) (Some f) op col = Err ValueError.
Proof.
  intro H. unfold threshold_init, tv_truthy. rewrite andb_false_r.
  destruct l as [|e l]; [easy|].
  assert (ES : set_thresholds TVnone (Some (all_bounded (e :: l))) = Ok (map fst (e :: l), Some (map snd (e :: l)))).
  { unfold set_thresholds, all_bounded. simpl map at 1. cbn [map fst snd]. apply (config_loop_bounded (e :: l) [] []). }
  rewrite ES. reflexivity.
Qed.
Lemma init_usable tv cfg ff op col p : threshold_init tv cfg ff op col = Ok p ->
  (cfg = None \/ (exists f, ff = Some f)) ->
  forall k, (k < length (tp_thresholds p))%nat ->
     usable (nth k (tp_thresholds p) 0) (fst (nth k (tp_bounds p) (0, 0))) (snd (nth k (tp_bounds p) (0, 0))).
Proof.
  intros HI HC k Hk. destruct (init_inv _ _ _ _ _ _ HI) as (A & _ & _ & B & C & D).
  destruct ff as [f|].
  - right. destruct (C f eq_refl) as [_ C']. specialize (C' k Hk). split; lra.
  - left. destruct HC as [HC|[f HC]]; [|discriminate]. apply D; trivial.
Qed.

Lemma fuzzy_is_ramp c t lo hi data out : lo < t < hi -> truth_values c t (lo, hi) data = Ok out ->
  Forall2 (fun x v => v == if above c then ramp lo t hi x else 1 - ramp lo t hi x) data out.
Proof.
  intros Hb H. apply truth_values_spec in H; [|lra].
  induction H as [|x v data out [[E _]|[_ E]] H IH]; constructor; trivial; lra.
Qed.
Lemma fuzzy_total c t lo hi data : lo < t < hi -> exists out, truth_values c t (lo, hi) data = Ok out.
Proof. intro H. apply truth_values_ok_iff. right. lra. Qed.
Lemma fuzzy_complement c c' t lo hi data out out' : lo < t < hi -> above c = true -> above c' = false ->
  truth_values c t (lo, hi) data = Ok out -> truth_values c' t (lo, hi) data = Ok out' ->
  Forall2 (fun v v' => v' == 1 - v) out out'.
Proof.
  intros Hb A A' H H'. apply fuzzy_is_ramp in H; [|exact Hb]. apply fuzzy_is_ramp in H'; [|exact Hb].
  rewrite A in H. rewrite A' in H'. revert out' H'.
  induction H as [|x v data out E H IH]; intros out' H'; inversion H'; subst; constructor; auto. rewrite E; trivial.
Qed.
Lemma unmasked_nil i ss : unmasked (map (member i) ss) = [] <-> Forall (fun s => nth i (sl_mask s) true = true) ss.
Proof.
  induction ss as [|s ss IH]; simpl; [split; constructor|].
  unfold member at 1. destruct (nth i (sl_mask s) true) eqn:E.
  - rewrite IH. split; [intro; constructor; trivial|]. intro H; inversion H; trivial.
  - split; [discriminate|]. intro H; inversion H; congruence.
Qed.
Lemma process_masked_iff p n ss out k i : well_formed p -> Forall (shaped n) ss -> ss <> [] ->
  process p n ss = Ok out -> (k < length (tp_thresholds p))%nat -> (i < n)%nat ->
  (nth i (nth k out []) None = None <-> Forall (fun s => nth i (sl_mask s) true = true) ss).
Proof.
  intros W HS HN H Hk Hi. pose proof (process_mean p n ss out k i W HS HN H Hk Hi) as M.
  rewrite <- unmasked_nil. destruct (nth i (nth k out []) None); simpl in M.
  - destruct M as [M _]. split; [discriminate|contradiction].
  - tauto.
Qed.
Lemma process_shape p n ss out : length (tp_bounds p) = length (tp_thresholds p) -> Forall (shaped n) ss ->
  process p n ss = Ok out -> length out = length (tp_thresholds p) /\ Forall (fun f => length f = n) out.
Proof.
  intros HB HS H. split; [apply (process_point p n ss out HB HS H)|]. revert H.
  unfold process. set (tbs := combine (tp_thresholds p) (tp_bounds p)).
  destruct (slices_loop _ tbs ss _ _) as [[tot accs]|] eqn:E; [|discriminate]. cbn [bind].
  intro H. injection H as <-.
  assert (R1 : length (map (fun _ : Q * (Q * Q) => repeat 0 n) tbs) = length tbs) by apply map_length.
  assert (R2 : Forall (fun a => length a = n) (map (fun _ : Q * (Q * Q) => repeat 0 n) tbs)).
  { apply Forall_forall. intros a Ha. apply in_map_iff in Ha as (x & <- & _). apply repeat_length. }
  destruct (slices_loop_ok (tp_cmp p) tbs n ss _ _ tot accs R1 (repeat_length _ _) HS R2 E) as (M1 & M2 & M3 & _).
  apply Forall_forall. intros f Hf. apply in_map_iff in Hf as (a & <- & Ha).
  rewrite Forall_forall in M3. specialize (M3 a Ha). unfold finish. rewrite zipw_length; lia.
Qed.
Lemma unordered_bounds_witness : exists p out a a',
  threshold_init TVnone (Some [(2, Some [1; 100]); (3, Some [5#2; 7#2])]) None "gt" Crealization = Ok p /\
  process p 1 [ {| sl_data := [4]; sl_mask := [false]; sl_nan := false |} ] = Ok out /\
  nth 0 (nth 0 out []) None = Some a /\ nth 0 (nth 1 out []) None = Some a' /\ a < a'.
Proof.
  do 4 eexists. split; [reflexivity|]. split; [reflexivity|]. split; [reflexivity|].
  split; [reflexivity|]. vm_compute. reflexivity.
Qed.
Lemma init_operator tv cfg ff op col p :
  threshold_init tv cfg ff op col = Ok p ->
  In op ["ge"; "GE"; ">="; "gt"; "GT"; ">"; "le"; "LE"; "<="; "lt"; "LT"; "<"]%string.
Proof.
  intro H. apply init_inv in H as (_ & H & _). unfold cmp_lookup, cmp_table in H. cbn [assoc] in H.
  repeat match type of H with (if String.eqb op ?s then _ else _) = _ =>
    destruct (String.eqb_spec op s) as [->|_]; [simpl; tauto|] end. discriminate.
Qed.
Lemma init_accepted tv cfg ff op col p : threshold_init tv cfg ff op col = Ok p ->
  length (tp_bounds p) = length (tp_thresholds p) /\
  (forall k, (k < length (tp_thresholds p))%nat ->
    fst (nth k (tp_bounds p) (0, 0)) <= nth k (tp_thresholds p) 0 <= snd (nth k (tp_bounds p) (0, 0))) /\
  (forall f, ff = Some f -> 0 < f < 1).
Proof.
  intro H. apply init_inv in H as (A & _ & _ & B & C & _). split; [exact A|]. split; [exact B|].
  intros f E. apply (C f E).
Qed.
Lemma init_applies tv cfg ff op col p n ss :
  threshold_init tv cfg ff op col = Ok p -> (cfg = None \/ exists f, ff = Some f) -> ss <> [] ->
  Forall (fun s => sl_nan s = false) ss -> exists out, process p n ss = Ok out.
Proof.
  intros HI HC HN HF. apply process_ok_iff; [apply (init_wf _ _ _ _ _ _ HI)|exact HN|].
  split; [exact HF|]. eapply init_usable; eauto.
Qed.
Lemma one_sided_witness : exists p,
  threshold_init TVnone (Some [(1, Some [1; 2])]) None "ge" Cnone = Ok p /\
  forall n s ss, process p n (s :: ss) = Err ValueError.
Proof.
  eexists. split; [reflexivity|]. intros n s ss. unfold process. cbn [tp_thresholds tp_bounds tp_cmp combine map].
  cbn [slices_loop]. destruct (sl_nan s); [reflexivity|]. reflexivity.
Qed.
Lemma mixed_witness :
  threshold_init TVnone (Some [(1, None); (5, Some [4; 6])]) None "ge" Cnone = Err AttributeError /\
  exists p, threshold_init TVnone (Some [(5, Some [4; 6]); (1, None)]) None "ge" Cnone = Ok p /\
    fst (nth 0 (tp_bounds p) (0, 0)) == 5 /\ snd (nth 0 (tp_bounds p) (0, 0)) == 5.
Proof. split; [reflexivity|]. eexists. split; [reflexivity|]. split; reflexivity. Qed.

Lemma lookup_means op c : cmp_lookup op = Some c -> forall x t, holds c x t <-> operator_means op x t.
Proof.
  unfold cmp_lookup, cmp_table. cbn [assoc]. intros H x t. unfold operator_means. cbn [In].
  repeat match goal with
  | H : (if String.eqb op ?s then _ else _) = _ |- _ => destruct (String.eqb_spec op s) as [->|?]; [injection H as <-; cbn [holds]; intuition congruence|]
  end. discriminate.
Qed.
Lemma lookup_total op : In op ["ge"; "GE"; ">="; "gt"; "GT"; ">"; "le"; "LE"; "<="; "lt"; "LT"; "<"]%string <-> exists c, cmp_lookup op = Some c.
Proof.
  split.
  - cbn [In]. intro H. repeat (destruct H as [<-|H]; [eexists; reflexivity|]). destruct H.
  - intros [c H]. unfold cmp_lookup, cmp_table in H. cbn [assoc] in H. cbn [In].
    repeat match goal with
    | H : (if String.eqb op ?s then _ else _) = _ |- _ => destruct (String.eqb_spec op s) as [->|?]; [tauto|]
    end. discriminate.
Qed.
Lemma spp_means c x t : attribute_means (spp_string c) x t <-> holds c x t.
Proof. destruct c; unfold attribute_means; cbn [spp_string holds]; intuition congruence. Qed.
