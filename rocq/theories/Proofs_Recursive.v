From Verif Require Import Base Model_Nbhood Spec_Nbhood Proofs_Nbhood Model_Vicinity Proofs_Vicinity Model_Recursive.
Local Open Scope Q_scope.

(** * One line *)
Lemma mix_bounds a u v lo hi : 0 <= a <= 1 -> lo <= u <= hi -> lo <= v <= hi -> lo <= (1 - a) * u + a * v <= hi.
Proof. intros A [U1 U2] [V1 V2]. split; nra. Qed.
Lemma mix_le a u v u' v' : 0 <= a <= 1 -> u <= u' -> v <= v' -> (1 - a) * u + a * v <= (1 - a) * u' + a * v'.
Proof. intros A U V. nra. Qed.
Lemma fwd_bounds f a lo hi k : (forall i, (0 <= i <= Z.of_nat k)%Z -> lo <= f i <= hi) -> (forall i, (0 <= i < Z.of_nat k)%Z -> 0 <= a i <= 1) -> lo <= fwd f a k <= hi.
Proof.
  induction k as [|k IH]; intros Hf Ha; cbn [fwd]; [apply Hf; lia|]. apply mix_bounds; [apply Ha; lia|apply Hf; lia|]. apply IH; intros i Hi; [apply Hf|apply Ha]; lia.
Qed.
Lemma bwd_bounds f a n lo hi k : (Z.of_nat k < n)%Z -> (forall i, (n - 1 - Z.of_nat k <= i < n)%Z -> lo <= f i <= hi) ->
  (forall i, (n - 1 - Z.of_nat k <= i < n - 1)%Z -> 0 <= a i <= 1) -> lo <= bwd f a n k <= hi.
Proof.
  induction k as [|k IH]; intros Hk Hf Ha; cbn [bwd]; [apply Hf; lia|]. cbv zeta. apply mix_bounds; [apply Ha; lia|apply Hf; lia|].
  apply IH; [lia| |]; intros i Hi; [apply Hf|apply Ha]; lia.
Qed.
Lemma sweep_bounds f a n lo hi i : (0 <= i < n)%Z -> (forall i, (0 <= i < n)%Z -> lo <= f i <= hi) -> (forall i, (0 <= i < n - 1)%Z -> 0 <= a i <= 1) -> lo <= sweep f a n i <= hi.
Proof.
  intros Hi Hf Ha. unfold sweep, recurse_backward. apply bwd_bounds; [lia| |].
  - intros k Hk. unfold recurse_forward. apply fwd_bounds; intros j Hj; [apply Hf|apply Ha]; lia.
  - intros k Hk. apply Ha. lia.
Qed.
Lemma fwd_le f f' a k : (forall i, (0 <= i <= Z.of_nat k)%Z -> f i <= f' i) -> (forall i, (0 <= i < Z.of_nat k)%Z -> 0 <= a i <= 1) -> fwd f a k <= fwd f' a k.
Proof.
  induction k as [|k IH]; intros Hf Ha; cbn [fwd]; [apply Hf; lia|]. apply mix_le; [apply Ha; lia|apply Hf; lia|]. apply IH; intros i Hi; [apply Hf|apply Ha]; lia.
Qed.
Lemma bwd_le f f' a n k : (Z.of_nat k < n)%Z -> (forall i, (n - 1 - Z.of_nat k <= i < n)%Z -> f i <= f' i) ->
  (forall i, (n - 1 - Z.of_nat k <= i < n - 1)%Z -> 0 <= a i <= 1) -> bwd f a n k <= bwd f' a n k.
Proof.
  induction k as [|k IH]; intros Hk Hf Ha; cbn [bwd]; [apply Hf; lia|]. cbv zeta. apply mix_le; [apply Ha; lia|apply Hf; lia|].
  apply IH; [lia| |]; intros i Hi; [apply Hf|apply Ha]; lia.
Qed.
Lemma sweep_le f f' a n i : (0 <= i < n)%Z -> (forall i, (0 <= i < n)%Z -> f i <= f' i) -> (forall i, (0 <= i < n - 1)%Z -> 0 <= a i <= 1) -> sweep f a n i <= sweep f' a n i.
Proof.
  intros Hi Hf Ha. unfold sweep, recurse_backward. apply bwd_le; [lia| |].
  - intros k Hk. unfold recurse_forward. apply fwd_le; intros j Hj; [apply Hf|apply Ha]; lia.
  - intros k Hk. apply Ha. lia.
Qed.

(** * All sweeps *)
Definition within (h w : Z) (c : grid Q) (lo hi : Q) : Prop := forall i j, (0 <= i < h)%Z -> (0 <= j < w)%Z -> lo <= c i j <= hi.
Lemma run_bounds n h w cx cy lo hi : within h (w - 1) cx 0 1 -> within (h - 1) w cy 0 1 -> forall g, within h w g lo hi -> within h w (run_recursion n h w cx cy g) lo hi.
Proof.
  intros Hx Hy. induction n as [|n IH]; intros g Hg; cbn [run_recursion]; [exact Hg|]. apply IH. intros i j Hi Hj. unfold sweep_y. apply sweep_bounds; [exact Hi| |].
  - intros k Hk. unfold sweep_x. apply sweep_bounds; [exact Hj| |]; intros l Hl; [apply Hg|apply Hx]; lia.
  - intros k Hk. apply Hy; lia.
Qed.
Lemma run_le n h w cx cy : within h (w - 1) cx 0 1 -> within (h - 1) w cy 0 1 -> forall g g', (forall i j, (0 <= i < h)%Z -> (0 <= j < w)%Z -> g i j <= g' i j) ->
  forall i j, (0 <= i < h)%Z -> (0 <= j < w)%Z -> run_recursion n h w cx cy g i j <= run_recursion n h w cx cy g' i j.
Proof.
  intros Hx Hy. induction n as [|n IH]; intros g g' Hg i j Hi Hj; cbn [run_recursion]; [apply Hg; trivial|]. apply IH; trivial. intros i' j' Hi' Hj'. unfold sweep_y. apply sweep_le; [exact Hi'| |].
  - intros k Hk. unfold sweep_x. apply sweep_le; [exact Hj'| |]; intros l Hl; [apply Hg|apply Hx]; lia.
  - intros k Hk. apply Hy; lia.
Qed.
Lemma pad_within width h w g lo hi h' w' : (0 < h)%Z -> (0 < w)%Z -> within h w g lo hi -> within h' w' (pad_symmetric width h w g) lo hi.
Proof. intros Hh Hw H i j _ _. unfold pad_symmetric. apply H; apply reflect_in; trivial. Qed.
Lemma filter_bounds n edge h w cx cy g lo hi : (1 < h)%Z -> (1 < w)%Z -> (0 <= edge)%Z -> within h (w - 1) cx 0 1 -> within (h - 1) w cy 0 1 -> within h w g lo hi ->
  within h w (filter_slice n edge h w cx cy g) lo hi.
Proof.
  intros Hh Hw He Hx Hy Hg i j Hi Hj. unfold filter_slice. cbv zeta. unfold remove_halo. apply run_bounds; try lia; apply pad_within; try lia; trivial.
Qed.
Lemma filter_le n edge h w cx cy g g' : (1 < h)%Z -> (1 < w)%Z -> (0 <= edge)%Z -> within h (w - 1) cx 0 1 -> within (h - 1) w cy 0 1 ->
  (forall i j, (0 <= i < h)%Z -> (0 <= j < w)%Z -> g i j <= g' i j) ->
  forall i j, (0 <= i < h)%Z -> (0 <= j < w)%Z -> filter_slice n edge h w cx cy g i j <= filter_slice n edge h w cx cy g' i j.
Proof.
  intros Hh Hw He Hx Hy Hg i j Hi Hj. unfold filter_slice. cbv zeta. unfold remove_halo. apply run_le; try lia; try (apply pad_within; try lia; trivial).
  intros a b _ _. unfold pad_symmetric. apply Hg; apply reflect_in; lia.
Qed.

(** * Isolation of masked points in one pass *)
Lemma forward_0 f a n : recurse_forward f a n 0%Z = f 0%Z.
Proof. reflexivity. Qed.
Lemma forward_step f a n p : (0 < p)%Z -> recurse_forward f a n p = (1 - a (p - 1)%Z) * f p + a (p - 1)%Z * recurse_forward f a n (p - 1)%Z.
Proof.
  intro H. unfold recurse_forward. replace (Z.to_nat p) with (S (Z.to_nat (p - 1))) by lia. cbn [fwd].
  replace (Z.of_nat (Z.to_nat (p - 1))) with (p - 1)%Z by lia. replace (Z.of_nat (S (Z.to_nat (p - 1)))) with p by lia. reflexivity.
Qed.
Lemma backward_last f a n : recurse_backward f a n (n - 1)%Z = f (n - 1)%Z.
Proof. unfold recurse_backward. replace (Z.to_nat (n - 1 - (n - 1))) with O by lia. reflexivity. Qed.
Lemma backward_step f a n p : (p < n - 1)%Z -> recurse_backward f a n p = (1 - a p) * f p + a p * recurse_backward f a n (p + 1)%Z.
Proof.
  intro H. unfold recurse_backward. replace (Z.to_nat (n - 1 - p)) with (S (Z.to_nat (n - 1 - (p + 1)))) by lia. cbn [bwd]. cbv zeta.
  replace (n - 1 - Z.of_nat (S (Z.to_nat (n - 1 - (p + 1)))))%Z with p by lia. reflexivity.
Qed.
Section Isolation.
Variables (a : Z -> Q) (n L R : Z) (U : Z -> Prop).
Hypothesis HLR : (0 <= L <= R)%Z.
Hypothesis HR : (R < n)%Z.
Hypothesis Udec : forall i, U i \/ ~ U i.
Hypothesis HL0 : L = 0%Z \/ a (L - 1)%Z == 0.
Hypothesis HR0 : R = (n - 1)%Z \/ a R == 0.
Hypothesis Hcut : forall i, (L <= i < R)%Z -> ~ U i \/ ~ U (i + 1)%Z -> a i == 0.
Lemma forward_isolated f f' : (forall i, (L <= i <= R)%Z -> U i -> f i == f' i) ->
  forall i, (L <= i <= R)%Z -> U i -> recurse_forward f a n i == recurse_forward f' a n i.
Proof.
  intro H. assert (G : forall k, (0 <= k)%Z -> forall i, (i = L + k)%Z -> (i <= R)%Z -> U i -> recurse_forward f a n i == recurse_forward f' a n i).
  { apply (natlike_ind (fun k => forall i, (i = L + k)%Z -> (i <= R)%Z -> U i -> recurse_forward f a n i == recurse_forward f' a n i)).
    - intros i -> Hi HU. rewrite Z.add_0_r in *. destruct HL0 as [->|E]; [rewrite !forward_0; apply H; trivial; lia|].
      destruct (Z.eq_dec L 0) as [->|N]; [rewrite !forward_0; apply H; trivial; lia|]. rewrite (forward_step f a n L), (forward_step f' a n L) by lia. rewrite E, (H L) by (trivial; lia). ring.
    - intros k Hk IH i -> Hi HU. rewrite (forward_step f a n (L + Z.succ k)), (forward_step f' a n (L + Z.succ k)) by lia. rewrite (H (L + Z.succ k)%Z) by (trivial; lia).
      destruct (Udec (L + Z.succ k - 1)%Z) as [Y|N].
      + rewrite (IH (L + Z.succ k - 1)%Z) by (trivial; lia). reflexivity.
      + rewrite (Hcut (L + Z.succ k - 1)%Z) by (try lia; left; exact N). ring. }
  intros i Hi HU. apply (G (i - L)%Z); trivial; lia.
Qed.
Lemma backward_isolated f f' : (forall i, (L <= i <= R)%Z -> U i -> f i == f' i) ->
  forall i, (L <= i <= R)%Z -> U i -> recurse_backward f a n i == recurse_backward f' a n i.
Proof.
  intro H. assert (G : forall k, (0 <= k)%Z -> forall i, (i = R - k)%Z -> (L <= i)%Z -> U i -> recurse_backward f a n i == recurse_backward f' a n i).
  { apply (natlike_ind (fun k => forall i, (i = R - k)%Z -> (L <= i)%Z -> U i -> recurse_backward f a n i == recurse_backward f' a n i)).
    - intros i -> Hi HU. rewrite Z.sub_0_r in *. destruct (Z.eq_dec R (n - 1)) as [E|N]; [rewrite E, !backward_last, <- E; apply H; trivial; lia|].
      destruct HR0 as [E|E]; [contradiction|]. rewrite (backward_step f a n R), (backward_step f' a n R) by lia. rewrite E, (H R) by (trivial; lia). ring.
    - intros k Hk IH i -> Hi HU. rewrite (backward_step f a n (R - Z.succ k)), (backward_step f' a n (R - Z.succ k)) by lia. rewrite (H (R - Z.succ k)%Z) by (trivial; lia).
      destruct (Udec (R - Z.succ k + 1)%Z) as [Y|N].
      + rewrite (IH (R - Z.succ k + 1)%Z) by (trivial; lia). reflexivity.
      + rewrite (Hcut (R - Z.succ k)%Z) by (try lia; right; exact N). ring. }
  intros i Hi HU. apply (G (R - i)%Z); trivial; lia.
Qed.
Lemma sweep_isolated f f' : (forall i, (L <= i <= R)%Z -> U i -> f i == f' i) -> forall i, (L <= i <= R)%Z -> U i -> sweep f a n i == sweep f' a n i.
Proof. intro H. unfold sweep. apply backward_isolated. apply forward_isolated. exact H. Qed.
End Isolation.

(** A padded line: the halo's copies of masked cells are cut off on the side of the domain. *)
Lemma zfind (P : Z -> Prop) (Pdec : forall i, P i \/ ~ P i) n : (0 <= n)%Z ->
  (forall i, (0 <= i < n)%Z -> ~ P i) \/ exists k, (0 <= k < n)%Z /\ P k /\ forall i, (0 <= i < k)%Z -> ~ P i.
Proof.
  apply (natlike_ind (fun n => (forall i, (0 <= i < n)%Z -> ~ P i) \/ exists k, (0 <= k < n)%Z /\ P k /\ forall i, (0 <= i < k)%Z -> ~ P i)).
  - left. intros i Hi. lia.
  - intros k Hk [IH|[j [Hj [Pj Hm]]]].
    + destruct (Pdec k) as [Y|N]; [right; exists k; split; [lia|]; split; trivial|left]. intros i Hi. destruct (Z.eq_dec i k) as [->|]; [exact N|apply IH; lia].
    + right. exists j. split; [lia|]. split; trivial.
Qed.
Lemma padded_isolated W n (mask : Z -> bool) (a f f' : Z -> Q) : (0 <= W)%Z -> (1 < n)%Z ->
  (forall i, (0 <= i < n - 1)%Z -> (mask i || mask (i + 1)%Z)%bool = true -> a i == 0) ->
  (forall i, (0 <= i < n)%Z -> mask i = false -> f i == f' i) ->
  forall i, (0 <= i < n)%Z -> mask i = false ->
    sweep (fun p => f (reflect n (p - W)))%Z (fun p => a (reflect (n - 1) (p - W)))%Z (n + 2 * W) (i + W)%Z ==
    sweep (fun p => f' (reflect n (p - W)))%Z (fun p => a (reflect (n - 1) (p - W)))%Z (n + 2 * W) (i + W)%Z.
Proof.
  intros HW Hn Hcut Hf i Hi Hm.
  set (A := fun p => a (reflect (n - 1) (p - W))%Z). set (F := fun p => f (reflect n (p - W))%Z). set (F' := fun p => f' (reflect n (p - W))%Z).
  assert (Dec : forall k, mask k = true \/ ~ mask k = true) by (intro k; destruct (mask k); [left; reflexivity|right; discriminate]).
  assert (Hn0 : (0 <= n)%Z) by lia. destruct (zfind (fun k => mask k = true) Dec n Hn0) as [NoM|[k [Hk [Mk Mmin]]]].
  { assert (E : forall p, F p == F' p) by (intro p; apply Hf; [apply reflect_in; lia|]; destruct (mask (reflect n (p - W))) eqn:E; [|reflexivity]; exfalso; apply (NoM (reflect n (p - W))%Z); [apply reflect_in; lia|exact E]).
    apply (sweep_isolated A (n + 2 * W) 0 (n + 2 * W - 1) (fun _ => True)).
    - lia.
    - lia.
    - intros _. left. exact I.
    - left. reflexivity.
    - left. reflexivity.
    - intros j Hj [N|N]; exfalso; apply N; exact I.
    - intros j _ _. apply E.
    - lia.
    - exact I. }
  destruct (zfind (fun q => mask (n - 1 - q)%Z = true) (fun q => Dec (n - 1 - q)%Z) n Hn0) as [NoM|[q [Hq [Mq Qmin]]]].
  { exfalso. apply (NoM (n - 1 - k)%Z); [lia|]. replace (n - 1 - (n - 1 - k))%Z with k by lia. exact Mk. }
  (* the first masked copy to the left is at W - k - 1, to the right at W + n + q *)
  set (U := fun p => ((W <= p < W + n)%Z -> mask (p - W)%Z = false) /\ True).
  apply (sweep_isolated A (n + 2 * W) (Z.max 0 (W - k)) (Z.min (n + 2 * W - 1) (W + n + q - 1)) U).
  - lia.
  - lia.
  - intro p. unfold U. destruct (Z_le_dec W p), (Z_lt_dec p (W + n)); try (left; split; [intro; lia|exact I]).
    destruct (mask (p - W)%Z); [right; intros [X _]; assert (true = false) by (apply X; lia); discriminate|left; split; trivial].
  - destruct (Z_le_dec W k); [left; lia|right]. replace (Z.max 0 (W - k)) with (W - k)%Z by lia. unfold A. replace (W - k - 1 - W)%Z with (- k - 1)%Z by lia.
    destruct (Z.eq_dec k (n - 1)) as [->|N].
    + assert (E : reflect (n - 1) (- (n - 1) - 1) = (n - 2)%Z).
      { unfold reflect. replace ((- (n - 1) - 1) mod (2 * (n - 1)))%Z with (n - 2)%Z; [destruct (Z.ltb_spec (n - 2) (n - 1)); lia|].
        replace (- (n - 1) - 1)%Z with (n - 2 + (-1) * (2 * (n - 1)))%Z by lia. rewrite Z.mod_add by lia. symmetry. apply Z.mod_small. lia. }
      rewrite E. apply Hcut; [lia|]. replace (n - 2 + 1)%Z with (n - 1)%Z by lia. rewrite Mk. apply orb_true_r.
    + rewrite reflect_low by lia. replace (-1 - (- k - 1))%Z with k by lia. apply Hcut; [lia|]. rewrite Mk. reflexivity.
  - destruct (Z_le_dec W q); [left; lia|right]. replace (Z.min (n + 2 * W - 1) (W + n + q - 1)) with (W + n + q - 1)%Z by lia. unfold A.
    replace (W + n + q - 1 - W)%Z with (n - 1 + q)%Z by lia. destruct (Z.eq_dec q (n - 1)) as [->|N].
    + assert (E : reflect (n - 1) (n - 1 + (n - 1)) = 0%Z).
      { unfold reflect. replace (n - 1 + (n - 1))%Z with (2 * (n - 1))%Z by lia. rewrite Z.mod_same by lia. destruct (Z.ltb_spec 0 (n - 1)); lia. }
      rewrite E. apply Hcut; [lia|]. replace (n - 1 - (n - 1))%Z with 0%Z in Mq by lia. rewrite Mq. reflexivity.
    + rewrite reflect_high by lia. replace (2 * (n - 1) - 1 - (n - 1 + q))%Z with (n - 2 - q)%Z by lia. apply Hcut; [lia|].
      replace (n - 2 - q + 1)%Z with (n - 1 - q)%Z by lia. rewrite Mq. apply orb_true_r.
  - intros p Hp Hno. unfold A, U in *.
    (* an edge next to a masked domain cell *)
    assert (D : (W <= p < W + n)%Z /\ mask (p - W)%Z = true \/ (W <= p + 1 < W + n)%Z /\ mask (p + 1 - W)%Z = true).
    { destruct Hno as [N|N]; [left|right].
      - destruct (Z_le_dec W p), (Z_lt_dec p (W + n)); try (exfalso; apply N; split; [intro; lia|exact I]). split; [lia|].
        destruct (mask (p - W)%Z); [reflexivity|]. exfalso. apply N. split; trivial.
      - destruct (Z_le_dec W (p + 1)), (Z_lt_dec (p + 1) (W + n)); try (exfalso; apply N; split; [intro; lia|exact I]). split; [lia|].
        destruct (mask (p + 1 - W)%Z); [reflexivity|]. exfalso. apply N. split; trivial. }
    destruct D as [[Hd Md]|[Hd Md]].
    + destruct (Z.eq_dec (p - W) (n - 1)) as [E|N].
      * rewrite E. rewrite reflect_high by lia. replace (2 * (n - 1) - 1 - (n - 1))%Z with (n - 2)%Z by lia. apply Hcut; [lia|].
        replace (n - 2 + 1)%Z with (p - W)%Z by lia. rewrite Md. apply orb_true_r.
      * rewrite reflect_id by lia. apply Hcut; [lia|]. rewrite Md. reflexivity.
    + destruct (Z.eq_dec (p - W) (-1)) as [E|N].
      * rewrite E. rewrite reflect_low by lia. replace (-1 - -1)%Z with 0%Z by lia. apply Hcut; [lia|]. replace 0%Z with (p + 1 - W)%Z by lia. rewrite Md. reflexivity.
      * rewrite reflect_id by lia. apply Hcut; [lia|]. replace (p - W + 1)%Z with (p + 1 - W)%Z by lia. rewrite Md. apply orb_true_r.
  - intros p Hp [HU _]. unfold F, F'. destruct (Z_lt_dec p W).
    + rewrite reflect_low by lia. apply Hf; [lia|]. destruct (mask (-1 - (p - W))%Z) eqn:E; [|reflexivity]. exfalso. apply (Mmin (-1 - (p - W))%Z); [lia|exact E].
    + destruct (Z_lt_dec p (W + n)).
      * rewrite reflect_id by lia. apply Hf; [lia|apply HU; lia].
      * rewrite reflect_high by lia. apply Hf; [lia|]. destruct (mask (2 * n - 1 - (p - W))%Z) eqn:E; [|reflexivity]. exfalso. apply (Qmin (p - W - n)%Z); [lia|].
        replace (n - 1 - (p - W - n))%Z with (2 * n - 1 - (p - W))%Z by lia. exact E.
  - lia.
  - split; [|exact I]. intros _. replace (i + W - W)%Z with i by lia. exact Hm.
Qed.
Lemma filter_isolated edge h w (mask : grid bool) cx cy g g' : (0 <= edge)%Z -> (1 < h)%Z -> (1 < w)%Z ->
  (forall i j, (0 <= i < h)%Z -> (0 <= j < w)%Z -> mask i j = false -> g i j == g' i j) ->
  forall i j, (0 <= i < h)%Z -> (0 <= j < w)%Z -> mask i j = false ->
    filter_slice 1 edge h w (zero_masked_x mask cx) (zero_masked_y mask cy) g i j == filter_slice 1 edge h w (zero_masked_x mask cx) (zero_masked_y mask cy) g' i j.
Proof.
  intros He Hh Hw Hg i j Hi Hj Hm. unfold filter_slice. cbv zeta. set (W := (2 * edge)%Z). cbn [run_recursion]. unfold remove_halo, sweep_y, sweep_x, pad_symmetric.
  set (Rx := fun (G : grid Q) (y : Z) => sweep (fun q => G y (reflect w (q - W))) (fun q => zero_masked_x mask cx y (reflect (w - 1) (q - W))) (w + 2 * W) (j + W)%Z).
  assert (EX : forall y, (0 <= y < h)%Z -> mask y j = false -> Rx g y == Rx g' y).
  { intros y Hy My. unfold Rx. apply (padded_isolated W w (mask y) (zero_masked_x mask cx y) (g y) (g' y)); try lia; trivial.
    - intros k _ M. unfold zero_masked_x. rewrite M. reflexivity.
    - intros k Hk Mk. apply Hg; trivial. }
  apply (padded_isolated W h (fun y => mask y j) (fun k => zero_masked_y mask cy k (reflect w (j + W - W))) (Rx g) (Rx g')); try lia; trivial.
  intros k _ M. replace (j + W - W)%Z with j by lia. rewrite reflect_id by lia. unfold zero_masked_y. rewrite M. reflexivity.
Qed.

(** * process *)
Lemma any_masked_spec h w m : any_masked h w m = true <-> exists i j, (0 <= i < h)%Z /\ (0 <= j < w)%Z /\ m i j = true.
Proof.
  unfold any_masked. rewrite existsb_exists. split.
  - intros [[i j] [Hin H]]. apply indices_in in Hin. exists i, j. tauto.
  - intros [i [j [Hi [Hj H]]]]. exists (i, j). split; [apply indices_in; tauto|exact H].
Qed.
Lemma too_large_spec h w c : too_large h w c = true <-> exists i j, (0 <= i < h)%Z /\ (0 <= j < w)%Z /\ 1 # 2 < c i j.
Proof.
  unfold too_large. rewrite existsb_exists. split.
  - intros [[i j] [Hin H]]. apply indices_in in Hin. exists i, j. cbn [fst snd] in H. apply Qltb_lt in H. tauto.
  - intros [i [j [Hi [Hj H]]]]. exists (i, j). split; [apply indices_in; tauto|]. cbn [fst snd]. apply Qltb_lt. exact H.
Qed.
Lemma zeroed_within_x h w mask cx lo hi : lo <= 0 -> 0 <= hi -> within h w cx lo hi -> within h w (zero_masked_x mask cx) lo hi.
Proof. intros A B H i j Hi Hj. unfold zero_masked_x. destruct (_ || _)%bool; [split; trivial|apply H; trivial]. Qed.
Lemma zeroed_within_y h w mask cy lo hi : lo <= 0 -> 0 <= hi -> within h w cy lo hi -> within h w (zero_masked_y mask cy) lo hi.
Proof. intros A B H i j Hi Hj. unfold zero_masked_y. destruct (_ || _)%bool; [split; trivial|apply H; trivial]. Qed.
(** What a successful call is. *)
Lemma process_ok iterations edge h w times slices cx cy out after : recursive_process iterations edge h w times slices cx cy = (Ok out, after) ->
  exists n mask, iterations = Some n /\ after = (fst after, snd after) /\
    (after = (cx, cy) \/ after = (zero_masked_x mask cx, zero_masked_y mask cy)) /\
    out = map (fun s => (filter_slice (Z.to_nat n) edge h w (fst after) (snd after) (fst s), mask)) slices /\
    too_large h (w - 1) cx = false /\ too_large (h - 1) w cy = false /\
    (existsb (fun s => any_masked h w (snd s)) slices = false -> mask = (fun _ _ => false) /\ after = (cx, cy)) /\
    (existsb (fun s => any_masked h w (snd s)) slices = true -> exists first rest, slices = first :: rest /\ mask = snd first /\ after = (zero_masked_x mask cx, zero_masked_y mask cy)).
Proof.
  unfold recursive_process. destruct (too_large h (w - 1) cx); [discriminate|]. destruct (too_large (h - 1) w cy); [discriminate|]. cbn [orb].
  destruct slices as [|first rest]; [discriminate|]. set (sl := first :: rest). destruct (existsb (fun s => any_masked h w (snd s)) sl) eqn:E; cbn [andb].
  - destruct (1 <? times)%Z; [discriminate|]. destruct iterations as [n|]; [|discriminate]. intro H.
    apply pair_equal_spec in H. destruct H as [H <-]. apply Ok_inj in H. exists n, (snd first). cbn [fst snd]. split; [reflexivity|]. split; [reflexivity|].
    split; [right; reflexivity|]. split; [symmetry; exact H|]. split; [reflexivity|]. split; [reflexivity|]. split; [discriminate|].
    intros _. exists first, rest. split; [reflexivity|]. split; reflexivity.
  - destruct iterations as [n|]; [|discriminate]. intro H.
    apply pair_equal_spec in H. destruct H as [H <-]. apply Ok_inj in H. exists n, (fun _ _ => false). cbn [fst snd]. split; [reflexivity|]. split; [reflexivity|].
    split; [left; reflexivity|]. split; [symmetry; exact H|]. split; [reflexivity|]. split; [reflexivity|]. split; [intros _; split; reflexivity|discriminate].
Qed.
Lemma not_large h w c : too_large h w c = false -> (forall i j, (0 <= i < h)%Z -> (0 <= j < w)%Z -> 0 <= c i j) -> within h w c 0 (1 # 2).
Proof.
  intros H P i j Hi Hj. split; [apply P; trivial|]. destruct (Qlt_le_dec (1 # 2) (c i j)) as [L|L]; [|exact L].
  exfalso. assert (E : too_large h w c = true) by (apply too_large_spec; exists i, j; split; [exact Hi|]; split; trivial). congruence.
Qed.
Lemma within_weaken h w c : within h w c 0 (1 # 2) -> within h w c 0 1.
Proof. intros H i j Hi Hj. assert (A := H i j Hi Hj). lra. Qed.
Definition coefficients_nonneg (h w : Z) (cx cy : grid Q) : Prop :=
  (forall i j, (0 <= i < h)%Z -> (0 <= j < w - 1)%Z -> 0 <= cx i j) /\ (forall i j, (0 <= i < h - 1)%Z -> (0 <= j < w)%Z -> 0 <= cy i j).
Lemma after_within iterations edge h w times slices cx cy out after : recursive_process iterations edge h w times slices cx cy = (Ok out, after) ->
  coefficients_nonneg h w cx cy -> within h (w - 1) (fst after) 0 1 /\ within (h - 1) w (snd after) 0 1.
Proof.
  intros H [Px Py]. destruct (process_ok _ _ _ _ _ _ _ _ _ _ H) as [n [mask [_ [_ [Ha [_ [Lx [Ly _]]]]]]]].
  assert (Wx := within_weaken _ _ _ (not_large _ _ _ Lx Px)). assert (Wy := within_weaken _ _ _ (not_large _ _ _ Ly Py)).
  destruct Ha as [-> | ->]; cbn [fst snd]; [split; trivial|]. split; [apply zeroed_within_x|apply zeroed_within_y]; trivial; lra.
Qed.
