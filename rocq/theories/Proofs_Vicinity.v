From Verif Require Import Base Model_Nbhood Spec_Nbhood Proofs_Nbhood Model_Vicinity Spec_Vicinity.
Local Open Scope Q_scope.

Lemma reflect_in n i : (0 < n)%Z -> (0 <= reflect n i < n)%Z.
Proof. intro H. unfold reflect. assert (A := Z.mod_pos_bound i (2 * n) ltac:(lia)). destruct (Z.ltb_spec (i mod (2 * n)) n); lia. Qed.
Lemma reflect_id n i : (0 <= i < n)%Z -> reflect n i = i.
Proof. intro H. unfold reflect. rewrite Z.mod_small by lia. destruct (Z.ltb_spec i n); lia. Qed.
Lemma reflect_low n i : (- n <= i < 0)%Z -> reflect n i = (- 1 - i)%Z.
Proof.
  intro H. unfold reflect. replace (i mod (2 * n))%Z with (i + 2 * n)%Z; [destruct (Z.ltb_spec (i + 2 * n) n); lia|].
  symmetry. replace i with (i + 2 * n + (-1) * (2 * n))%Z at 1 by lia. rewrite Z.mod_add by lia. apply Z.mod_small. lia.
Qed.
Lemma reflect_high n i : (n <= i < 2 * n)%Z -> reflect n i = (2 * n - 1 - i)%Z.
Proof. intro H. unfold reflect. rewrite Z.mod_small by lia. destruct (Z.ltb_spec i n); lia. Qed.
(** Reflection never leaves the window. *)
Lemma reflect_window n r y i : (0 <= y < n)%Z -> (y - r <= i <= y + r)%Z -> (y - r <= reflect n i <= y + r)%Z.
Proof.
  intros Hy Hi. assert (A := reflect_in n i ltac:(lia)).
  destruct (Z_lt_dec i (- n)); [lia|]. destruct (Z_lt_dec i 0); [rewrite reflect_low by lia; lia|]. destruct (Z_lt_dec i n); [rewrite reflect_id by lia; lia|].
  destruct (Z_lt_dec i (2 * n)); [rewrite reflect_high by lia; lia|lia].
Qed.
Lemma window_in r y x i j : In (i, j) (window r y x) <-> (y - r <= i <= y + r)%Z /\ (x - r <= j <= x + r)%Z.
Proof.
  unfold window. rewrite in_prod_iff, !in_map_iff. split.
  - intros [[a [Ea Ha]] [b [Eb Hb]]]. apply zseq_in in Ha, Hb. lia.
  - intros [A B]. split; [exists (i - (y - r))%Z|exists (j - (x - r))%Z]; (split; [lia|apply zseq_in; lia]).
Qed.
Lemma maximum_filter_spec h w r g y x : (0 <= y < h)%Z -> (0 <= x < w)%Z -> (0 <= r)%Z ->
  is_maximum (fun i j => (0 <= i < h)%Z /\ (0 <= j < w)%Z /\ (y - r <= i <= y + r)%Z /\ (x - r <= j <= x + r)%Z) g (maximum_filter h w r g y x).
Proof.
  intros Hy Hx Hr. unfold maximum_filter. cbv zeta. set (f := fun p => g (reflect h (fst p)) (reflect w (snd p))).
  assert (Hne : In (f (y, x)) (map f (window r y x))) by (apply in_map; apply window_in; lia).
  set (vs := map f (window r y x)) in *. assert (Hd : In (hd 0 vs) vs) by (destruct vs; [destruct Hne|left; reflexivity]).
  split.
  - destruct (qmaxl_in (hd 0 vs) vs) as [v [Hv E]]. assert (Hv' : In v vs) by (destruct Hv as [<-|Hv]; trivial).
    unfold vs in Hv'. apply in_map_iff in Hv'. destruct Hv' as [[i j] [Ev Hin]]. apply window_in in Hin. exists (reflect h i), (reflect w j).
    split; [|rewrite E, <- Ev; reflexivity]. assert (A := reflect_in h i ltac:(lia)). assert (B := reflect_in w j ltac:(lia)).
    assert (C := reflect_window h r y i Hy ltac:(tauto)). assert (D := reflect_window w r x j Hx ltac:(tauto)). tauto.
  - intros i j [Hi [Hj [Wi Wj]]]. apply qmaxl_ge. right. unfold vs. apply in_map_iff. exists (i, j). split; [|apply window_in; tauto].
    unfold f. cbn [fst snd]. rewrite !reflect_id by lia. reflexivity.
Qed.
Lemma vicinity_spec fill h w r data own land y x : (0 <= y < h)%Z -> (0 <= x < w)%Z -> (0 <= r)%Z ->
  (forall i j, (0 <= i < h)%Z -> (0 <= j < w)%Z -> own i j = false -> - fill < data i j) -> own y x = false ->
  is_maximum (counts h w r own land y x) data (fst (maximum_within_vicinity fill h w r data own land y x)).
Proof.
  intros Hy Hx Hr Hf Ho. unfold maximum_within_vicinity. cbv zeta. cbn [fst]. rewrite Ho.
  set (keep := fun i j => (negb (own i j) && match land with Some l => Bool.eqb (l i j) (l y x) | None => true end)%bool).
  assert (K : exists G, (forall i j, G i j = if keep i j then data i j else - fill) /\
    match land with Some l => maximum_filter h w r (fun i j => if Bool.eqb (l i j) (l y x) then (if own i j then - fill else data i j) else - fill) y x
    | None => maximum_filter h w r (fun i j => if own i j then - fill else data i j) y x end = maximum_filter h w r G y x).
  { destruct land as [l|].
    - exists (fun i j => if Bool.eqb (l i j) (l y x) then (if own i j then - fill else data i j) else - fill). split; [|reflexivity]. intros i j. unfold keep.
      destruct (own i j), (Bool.eqb (l i j) (l y x)); reflexivity.
    - exists (fun i j => if own i j then - fill else data i j). split; [|reflexivity]. intros i j. unfold keep. destruct (own i j); reflexivity. }
  destruct K as [G [HG E]].
  assert (E' : match land with Some l => fun y0 x0 => maximum_filter h w r (fun i j => if Bool.eqb (l i j) (l y0 x0) then (if own i j then - fill else data i j) else - fill) y0 x0
    | None => maximum_filter h w r (fun i j => if own i j then - fill else data i j) end y x = maximum_filter h w r G y x) by (rewrite <- E; destruct land; reflexivity).
  match goal with |- is_maximum _ _ ?v => change v with (match land with Some l => fun y0 x0 => maximum_filter h w r (fun i j => if Bool.eqb (l i j) (l y0 x0) then (if own i j then - fill else data i j) else - fill) y0 x0
    | None => maximum_filter h w r (fun i j => if own i j then - fill else data i j) end y x) end.
  rewrite E'. destruct (maximum_filter_spec h w r G y x Hy Hx Hr) as [[i [j [Hin Ev]]] Hge].
  assert (KC : forall i j, (0 <= i < h)%Z /\ (0 <= j < w)%Z /\ (y - r <= i <= y + r)%Z /\ (x - r <= j <= x + r)%Z -> keep i j = true -> counts h w r own land y x i j).
  { intros a b [A [B [C D]]] Kt. unfold keep in Kt. apply andb_true_iff in Kt. destruct Kt as [K1 K2]. unfold counts. repeat split; try lia.
    - destruct (own a b); [discriminate|reflexivity].
    - destruct land as [l|]; [|exact I]. apply Bool.eqb_prop. exact K2. }
  assert (CK : forall i j, counts h w r own land y x i j -> ((0 <= i < h)%Z /\ (0 <= j < w)%Z /\ (y - r <= i <= y + r)%Z /\ (x - r <= j <= x + r)%Z) /\ keep i j = true).
  { intros a b [A [B [C [D [O L]]]]]. split; [tauto|]. unfold keep. rewrite O. cbn [negb andb]. destruct land as [l|]; [|reflexivity]. rewrite L. apply Bool.eqb_reflx. }
  assert (SELF : counts h w r own land y x y x) by (unfold counts; repeat split; try lia; trivial; destruct land; trivial).
  split.
  - rewrite HG in Ev. destruct (keep i j) eqn:Kij; [exists i, j; split; [apply KC; trivial|exact Ev]|].
    exfalso. destruct (CK y x SELF) as [S1 S2]. assert (B := Hge y x S1). rewrite HG, S2 in B. assert (C := Hf y x Hy Hx Ho). lra.
  - intros a b Hc. destruct (CK a b Hc) as [S1 S2]. assert (B := Hge a b S1). rewrite HG, S2 in B. exact B.
Qed.
Lemma max_unique P data u v : is_maximum P data u -> is_maximum P data v -> u == v.
Proof.
  intros [[i [j [A B]]] C] [[k [l [D E]]] F]. assert (u <= v) by (rewrite B; apply F; exact A). assert (v <= u) by (rewrite E; apply C; exact D). lra.
Qed.
