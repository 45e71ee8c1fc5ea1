(** C38: the recursive filter. *)
From Verif Require Import Base Model_Nbhood Proofs_Nbhood Model_Vicinity Model_Recursive Proofs_Recursive.
Local Open Scope Q_scope.

(** Coefficients above one half, fewer than one iteration and masks with several times are refused. *)
Theorem C38_rejections iterations edge h w times slices cx cy :
  ((exists i j, (0 <= i < h)%Z /\ (0 <= j < w - 1)%Z /\ 1 # 2 < cx i j) \/ (exists i j, (0 <= i < h - 1)%Z /\ (0 <= j < w)%Z /\ 1 # 2 < cy i j) ->
   fst (recursive_process iterations edge h w times slices cx cy) = Err ValueError) /\
  (forall n, (n < 1)%Z -> recursive_init (Some n) = Err ValueError) /\
  ((1 < times)%Z -> (exists s i j, In s slices /\ (0 <= i < h)%Z /\ (0 <= j < w)%Z /\ snd s i j = true) ->
   fst (recursive_process iterations edge h w times slices cx cy) = Err ValueError).
Proof.
  split; [|split].
  - intros [H|H]; apply too_large_spec in H; unfold recursive_process; rewrite H; [|rewrite orb_true_r]; reflexivity.
  - intros n Hn. unfold recursive_init. apply Z.ltb_lt in Hn. rewrite Hn. reflexivity.
  - intros Ht [s [i [j [Hs [Hi [Hj Hm]]]]]]. unfold recursive_process. destruct (_ || _)%bool; [reflexivity|]. destruct slices as [|first rest]; [destruct Hs|].
    assert (E : existsb (fun s => any_masked h w (snd s)) (first :: rest) = true).
    { apply existsb_exists. exists s. split; [exact Hs|]. apply any_masked_spec. exists i, j. tauto. }
    rewrite E. apply Z.ltb_lt in Ht. rewrite Ht. reflexivity.
Qed.

(** With non-negative coefficients the filtered values stay within the range of their slice, so a constant slice is unchanged. *)
Theorem C38_range iterations edge h w times slices cx cy out after k g m v m' lo hi : (1 < h)%Z -> (1 < w)%Z -> (0 <= edge)%Z -> coefficients_nonneg h w cx cy ->
  recursive_process iterations edge h w times slices cx cy = (Ok out, after) -> nth_error slices k = Some (g, m) -> nth_error out k = Some (v, m') ->
  (forall i j, (0 <= i < h)%Z -> (0 <= j < w)%Z -> lo <= g i j <= hi) -> forall i j, (0 <= i < h)%Z -> (0 <= j < w)%Z -> lo <= v i j <= hi.
Proof.
  intros Hh Hw He Hc H Hs Ho Hg. destruct (after_within _ _ _ _ _ _ _ _ _ _ H Hc) as [Wx Wy].
  destruct (process_ok _ _ _ _ _ _ _ _ _ _ H) as [n [mask [_ [_ [_ [-> _]]]]]]. rewrite nth_error_map, Hs in Ho. cbn [option_map fst] in Ho. injection Ho as <- <-.
  apply filter_bounds; trivial.
Qed.
Theorem C38_constant_kept iterations edge h w times slices cx cy out after k g m v m' c : (1 < h)%Z -> (1 < w)%Z -> (0 <= edge)%Z -> coefficients_nonneg h w cx cy ->
  recursive_process iterations edge h w times slices cx cy = (Ok out, after) -> nth_error slices k = Some (g, m) -> nth_error out k = Some (v, m') ->
  (forall i j, (0 <= i < h)%Z -> (0 <= j < w)%Z -> g i j == c) -> forall i j, (0 <= i < h)%Z -> (0 <= j < w)%Z -> v i j == c.
Proof.
  intros Hh Hw He Hc H Hs Ho Hg i j Hi Hj.
  destruct (C38_range _ _ _ _ _ _ _ _ _ _ _ _ _ _ _ c c Hh Hw He Hc H Hs Ho) with (i := i) (j := j); trivial; [|lra].
  intros a b Ha Hb. rewrite (Hg a b Ha Hb). split; apply Qle_refl.
Qed.
(** Slices ordered point by point stay ordered. *)
Theorem C38_order_kept iterations edge h w times slices cx cy out after k k' g g' m m' v v' n n' : (1 < h)%Z -> (1 < w)%Z -> (0 <= edge)%Z -> coefficients_nonneg h w cx cy ->
  recursive_process iterations edge h w times slices cx cy = (Ok out, after) ->
  nth_error slices k = Some (g, m) -> nth_error out k = Some (v, n) -> nth_error slices k' = Some (g', m') -> nth_error out k' = Some (v', n') ->
  (forall i j, (0 <= i < h)%Z -> (0 <= j < w)%Z -> g i j <= g' i j) -> forall i j, (0 <= i < h)%Z -> (0 <= j < w)%Z -> v i j <= v' i j.
Proof.
  intros Hh Hw He Hc H Hs Ho Hs' Ho' Hg. destruct (after_within _ _ _ _ _ _ _ _ _ _ H Hc) as [Wx Wy].
  destruct (process_ok _ _ _ _ _ _ _ _ _ _ H) as [q [mask [_ [_ [_ [-> _]]]]]]. rewrite nth_error_map, Hs in Ho. cbn [option_map fst] in Ho. injection Ho as <- <-.
  rewrite nth_error_map, Hs' in Ho'. cbn [option_map fst] in Ho'. injection Ho' as <- <-. apply filter_le; trivial.
Qed.
(** Negative coefficients pass the check and carry values out of the range. *)
Definition minus_one : grid Q := fun _ _ => -1.
Definition no_smoothing : grid Q := fun _ _ => 0.
Definition no_mask : grid bool := fun _ _ => false.
Definition ramp : grid Q := fun _ j => inject_Z j.
Theorem C38_negative_coefficients_refuted : exists out after v m, recursive_process (Some 1%Z) 0 2 2 1 [(ramp, no_mask)] minus_one no_smoothing = (Ok out, after) /\
  nth_error out 0 = Some (v, m) /\ v 0%Z 1%Z == 2 /\ (forall i j, (0 <= i < 2)%Z -> (0 <= j < 2)%Z -> 0 <= ramp i j <= 1).
Proof.
  eexists. eexists. eexists. eexists. split; [reflexivity|]. split; [reflexivity|]. split; [vm_compute; reflexivity|].
  intros i j Hi Hj. unfold ramp. change 0 with (inject_Z 0). change 1 with (inject_Z 1). rewrite <- !Zle_Qle. lia.
Qed.

(** The new cube is masked where the first slice of the input is, and nowhere if nothing is masked; when all slices share one mask this is
    the input's mask. *)
Theorem C38_mask_kept iterations edge h w times slices cx cy out after k g m v m' (M : grid bool) :
  recursive_process iterations edge h w times slices cx cy = (Ok out, after) -> nth_error slices k = Some (g, m) -> nth_error out k = Some (v, m') ->
  (forall s, In s slices -> forall i j, (0 <= i < h)%Z -> (0 <= j < w)%Z -> snd s i j = M i j) ->
  length out = length slices /\ forall i j, (0 <= i < h)%Z -> (0 <= j < w)%Z -> m' i j = m i j.
Proof.
  intros H Hs Ho HM. destruct (process_ok _ _ _ _ _ _ _ _ _ _ H) as [n [mask [_ [_ [_ [-> [_ [_ [H0 H1]]]]]]]]]. rewrite map_length. split; [reflexivity|].
  rewrite nth_error_map, Hs in Ho. cbn [option_map] in Ho. injection Ho as _ <-. intros i j Hi Hj.
  assert (Hin := nth_error_In _ _ Hs). assert (Em : m i j = M i j) by (exact (HM _ Hin i j Hi Hj)).
  destruct (existsb (fun s => any_masked h w (snd s)) slices) eqn:E.
  - destruct (H1 eq_refl) as [first [rest [-> [-> _]]]]. rewrite Em. apply HM; trivial. left. reflexivity.
  - destruct (H0 eq_refl) as [-> _]. cbv beta. destruct (m i j) eqn:Mij; [|reflexivity].
    assert (X : existsb (fun s => any_masked h w (snd s)) slices = true).
    { apply existsb_exists. exists (g, m). split; [exact Hin|]. apply any_masked_spec. exists i, j. tauto. }
    congruence.
Qed.
Definition corner_mask : grid bool := fun i j => (Z.eqb i 0 && Z.eqb j 0)%bool.
(** With masks that differ between slices (realizations, say) those after the first are dropped. *)
Theorem C38_first_mask_only_refuted : exists out after v m, recursive_process (Some 1%Z) 1 2 3 1 [(ramp, no_mask); (ramp, corner_mask)] no_smoothing no_smoothing = (Ok out, after) /\
  nth_error out 1 = Some (v, m) /\ m 0%Z 0%Z = false.
Proof. eexists. eexists. eexists. eexists. split; [reflexivity|]. split; reflexivity. Qed.

(** Values under the mask do not reach unmasked points in one iteration. *)
Theorem C38_masked_values_isolated_partial edge h w times cx cy g g' m out out' after after' v v' m1 m2 : (1 < h)%Z -> (1 < w)%Z -> (0 <= edge)%Z ->
  recursive_process (Some 1%Z) edge h w times [(g, m)] cx cy = (Ok out, after) -> recursive_process (Some 1%Z) edge h w times [(g', m)] cx cy = (Ok out', after') ->
  nth_error out 0 = Some (v, m1) -> nth_error out' 0 = Some (v', m2) ->
  (forall i j, (0 <= i < h)%Z -> (0 <= j < w)%Z -> m i j = false -> g i j == g' i j) ->
  forall i j, (0 <= i < h)%Z -> (0 <= j < w)%Z -> m i j = false -> v i j == v' i j.
Proof.
  intros Hh Hw He H H' Ho Ho' Hg.
  destruct (process_ok _ _ _ _ _ _ _ _ _ _ H) as [n [mask [En [_ [_ [-> [_ [_ [H0 H1]]]]]]]]]. injection En as <-.
  destruct (process_ok _ _ _ _ _ _ _ _ _ _ H') as [n' [mask' [En' [_ [_ [-> [_ [_ [H0' H1']]]]]]]]]. injection En' as <-.
  cbn [map nth_error fst] in Ho, Ho'. injection Ho as <- _. injection Ho' as <- _. cbn [existsb snd] in *. rewrite orb_false_r in *.
  destruct (any_masked h w m) eqn:E.
  - destruct (H1 eq_refl) as [first [rest [Ef [-> ->]]]]. destruct (H1' eq_refl) as [first' [rest' [Ef' [-> ->]]]]. injection Ef as <- <-. injection Ef' as <- <-.
    cbn [fst snd]. apply filter_isolated; trivial.
  - destruct (H0 eq_refl) as [_ ->]. destruct (H0' eq_refl) as [_ ->]. cbn [fst snd].
    assert (A : forall i j, (0 <= i < h)%Z -> (0 <= j < w)%Z -> m i j = false).
    { intros i j Hi Hj. destruct (m i j) eqn:Mij; [|reflexivity]. assert (X : any_masked h w m = true) by (apply any_masked_spec; exists i, j; tauto). congruence. }
    intros i j Hi Hj _. assert (B := filter_isolated edge h w (fun _ _ => false) cx cy g g' He Hh Hw (fun i j Hi Hj _ => Hg i j Hi Hj (A i j Hi Hj)) i j Hi Hj eq_refl).
    exact B.
Qed.
(** In two they do, by way of the halo: its smoothing coefficients are mirrored about a line half a cell from the one the data are
    mirrored about, so the copy of a masked cell is open on its outer side. *)
Definition half_x : grid Q := fun i j => if (Z.eqb i 0 && Z.eqb j 0)%bool then 0 else 1 # 2.
Definition half_y : grid Q := fun i j => if Z.eqb j 1 then 1 # 2 else 0.
Definition spot (v : Q) : grid Q := fun i j => if (Z.eqb i 0 && Z.eqb j 0)%bool then v else 0.
Theorem C38_masked_values_leak_refuted :
  let run v := recursive_process (Some 2%Z) 1 2 3 1 [(spot v, corner_mask)] half_x half_y in
  exists out out' after after' v v' m m', run 0 = (Ok out, after) /\ run 1 = (Ok out', after') /\ nth_error out 0 = Some (v, m) /\ nth_error out' 0 = Some (v', m') /\
    (forall i j, corner_mask i j = false -> spot 0 i j == spot 1 i j) /\ corner_mask 1%Z 0%Z = false /\ v 1%Z 0%Z == 0 /\ 0 < v' 1%Z 0%Z.
Proof.
  cbv zeta. do 8 eexists. split; [reflexivity|]. split; [reflexivity|]. split; [reflexivity|]. split; [reflexivity|]. split.
  - intros i j H. unfold spot, corner_mask in *. rewrite H. reflexivity.
  - split; [reflexivity|]. split; vm_compute; reflexivity.
Qed.

Definition halves : grid Q := fun _ _ => 1 # 2.
(** The caller's coefficient cubes keep the zeros of the first masked cube they were used with, so a later cube without a mask is filtered
    differently from the way it would have been before. *)
Theorem C29_recursive_filter_coefficients_refuted :
  exists out after first second v v' m m', recursive_process (Some 1%Z) 0 2 3 1 [(ramp, corner_mask)] halves halves = (Ok out, after) /\
    recursive_process (Some 1%Z) 0 2 3 1 [(ramp, no_mask)] halves halves = first /\ recursive_process (Some 1%Z) 0 2 3 1 [(ramp, no_mask)] (fst after) (snd after) = second /\
    (exists o a o' a', first = (Ok o, a) /\ second = (Ok o', a') /\ nth_error o 0 = Some (v, m) /\ nth_error o' 0 = Some (v', m')) /\
    ~ v 0%Z 1%Z == v' 0%Z 1%Z.
Proof.
  do 8 eexists. split; [reflexivity|]. split; [reflexivity|]. split; [reflexivity|]. split; [do 4 eexists; split; [reflexivity|]; split; [reflexivity|]; split; reflexivity|].
  vm_compute. discriminate.
Qed.

(** A case that meets the hypotheses: coefficients up to one half, a masked corner, three iterations. *)
Example C38_case : coefficients_nonneg 2 3 half_x half_y /\ exists out after, recursive_process (Some 3%Z) 15 2 3 1 [(ramp, corner_mask)] half_x half_y = (Ok out, after).
Proof.
  split; [|do 2 eexists; reflexivity]. split; intros i j _ _; unfold half_x, half_y; [destruct (_ && _)%bool|destruct (Z.eqb j 1)]; lra.
Qed.

Print Assumptions C38_rejections.
Print Assumptions C38_range.
Print Assumptions C38_constant_kept.
Print Assumptions C38_order_kept.
Print Assumptions C38_negative_coefficients_refuted.
Print Assumptions C38_mask_kept.
Print Assumptions C38_first_mask_only_refuted.
Print Assumptions C38_masked_values_isolated_partial.
Print Assumptions C38_masked_values_leak_refuted.
Print Assumptions C29_recursive_filter_coefficients_refuted.
