(** C39: distances in grid cells, and halos. *)
From Coq Require Import Qround.
From Verif Require Import Base Model_Percentiles Model_Nbhood Proofs_Nbhood Model_Vicinity Proofs_Vicinity Model_Spatial Proofs_Spatial.
Local Open Scope Q_scope.

(** The spacing of a regular coordinate is its step; an accepted coordinate has every step within one part in 100000 of the spacing. *)
Theorem C39_spacing p0 d l : (2 <= length l)%nat -> (forall k, (k < length l)%nat -> nth k l 0 == p0 + Qn k * d) ->
  exists s, grid_spacing l = Ok (Some s) /\ s == Qabs d.
Proof. exact (spacing_regular p0 d l). Qed.
Theorem C39_spacing_accepted l s : grid_spacing l = Ok (Some s) -> 0 <= s /\ (2 <= length l)%nat /\
  forall k, (S k < length l)%nat -> Qabs (Qabs (nth (S k) l 0 - nth k l 0) - s) <= (1 # 100000) * s.
Proof. exact (spacing_tolerance l s). Qed.
(** A distance is converted to the number of whole cells it holds, at least one; anything shorter than a cell is refused. *)
Theorem C39_cells l distance s : grid_spacing l = Ok (Some s) -> 0 < s ->
  (forall k, distance_to_cells l distance = Ok k <-> (1 <= k)%Z /\ inject_Z k * s <= distance /\ distance < (inject_Z k + 1) * s) /\
  (distance_to_cells l distance = Err ValueError <-> distance < s).
Proof. exact (cells_spec l distance s). Qed.
(** A number of cells turned into a distance comes back. *)
Theorem C39_cells_roundtrip xs ys n distance s : grid_spacing xs = Ok (Some s) -> 0 < s -> (1 <= n)%Z -> cells_to_distance xs ys n = Ok (Some distance) ->
  distance_to_cells xs distance = Ok n.
Proof.
  intros Hs Hp Hn H. unfold cells_to_distance in H. destruct (check_equal_area xs ys) as [u|e]; [|discriminate]. cbn [bind] in H. rewrite Hs in H. cbn [bind option_map] in H.
  apply Ok_inj in H. injection H as <-. apply (cells_spec xs _ s Hs Hp). split; [exact Hn|]. split; [rewrite Qmult_comm; apply Qle_refl|].
  assert (E : (inject_Z n + 1) * s == s * inject_Z n + s) by ring. lra.
Qed.
(** A larger distance never covers fewer cells. *)
Theorem C39_cells_monotone l d d' k k' s : grid_spacing l = Ok (Some s) -> 0 < s -> d <= d' -> distance_to_cells l d = Ok k -> distance_to_cells l d' = Ok k' -> (k <= k')%Z.
Proof.
  intros Hs Hp Hd H H'. apply (cells_spec l d s Hs Hp) in H. apply (cells_spec l d' s Hs Hp) in H'. destruct H as [_ [A B]]. destruct H' as [_ [A' B']].
  destruct (Z_le_gt_dec k k') as [L|G]; [exact L|]. exfalso. assert (inject_Z k' + 1 <= inject_Z k) by (change 1 with (inject_Z 1); rewrite <- inject_Z_plus, <- Zle_Qle; lia).
  assert ((inject_Z k' + 1) * s <= inject_Z k * s) by (apply Qmult_le_compat_r; lra). lra.
Qed.

(** The halo of a regular coordinate carries the same step on, its bounds lie half a step either side, and taking the halo off again restores
    the points. *)
Theorem C39_halo_coordinate p0 d l w : (2 <= length l)%nat -> (forall k, (k < length l)%nat -> nth k l 0 == p0 + Qn k * d) ->
  exists q b l' b', pad_coord l w Add = Ok (q, b) /\ pad_coord q w Remove = Ok (l', b') /\
    length q = (length l + 2 * w)%nat /\
    (forall k, (k < length q)%nat -> nth k q 0 == p0 - Qn w * d + Qn k * d /\ fst (nth k b (0, 0)) == nth k q 0 - (1 # 2) * d /\ snd (nth k b (0, 0)) == nth k q 0 + (1 # 2) * d) /\
    length l' = length l /\ (forall k, (k < length l)%nat -> nth k l' 0 == nth k l 0).
Proof.
  intros Hl H. destruct (pad_regular p0 d l w Add Hl H) as [inc [_ E]]. cbv zeta in E. eexists. eexists.
  destruct (pad_add p0 d l w _ _ Hl H E) as [Lq [Rq [Lb B]]].
  destruct (pad_regular _ d _ w Remove (Nat.le_trans _ _ _ Hl (Nat.le_trans _ _ _ (Nat.le_add_r (length l) (2 * w)) (Nat.eq_le_incl _ _ (eq_sym Lq)))) Rq) as [inc' [_ E']]. cbv zeta in E'.
  eexists. eexists. split; [exact E|]. split; [exact E'|]. split; [exact Lq|]. split; [|exact (pad_roundtrip p0 d l w _ _ _ _ Hl H E E')].
  intros k Hk. split; [exact (Rq k Hk)|exact (B k Hk)].
Qed.
(** The data come back unchanged, whichever way the halo was filled. *)
Theorem C39_halo_data wy wx h w g i j : (0 <= i < h)%Z -> (0 <= j < w)%Z ->
  trim wy wx (pad_constant wy wx h w g) i j = g i j /\ trim wy wx (pad_mirror wy wx h w g) i j = g i j.
Proof.
  intros Hi Hj. unfold trim, pad_constant, pad_mirror. replace (i + wy - wy)%Z with i by lia. replace (j + wx - wx)%Z with j by lia.
  assert (E : inside h w i j = true) by (apply inside_true; lia). rewrite E, !reflect_id by lia. split; reflexivity.
Qed.
(** An uneven coordinate is refused only if its first and last steps differ: with the steps 1, 2, 1 it is accepted, its points are spread
    evenly, and the original does not come back. *)
Theorem C39_uneven_coordinate_refuted : exists q b l' b', pad_coord [0; 1; 3; 4] 1 Add = Ok (q, b) /\ pad_coord q 1 Remove = Ok (l', b') /\ ~ nth 1 l' 0 == 1.
Proof. do 4 eexists. split; [vm_compute; reflexivity|]. split; [vm_compute; reflexivity|]. vm_compute. discriminate. Qed.

Example C39_case : grid_spacing [0; 2000; 4000] = Ok (Some (4000 # 2)) /\ distance_to_cells [0; 2000; 4000] 5000 = Ok 2%Z /\ distance_to_cells [0; 2000; 4000] 1999 = Err ValueError /\
  grid_spacing [0; 2000; 4001] = Err ValueError /\ cells_to_distance [0; 2000; 4000] [0; 2000] 3 = Ok (Some (12000 # 2)).
Proof. repeat split; vm_compute; reflexivity. Qed.

Print Assumptions C39_spacing.
Print Assumptions C39_spacing_accepted.
Print Assumptions C39_cells.
Print Assumptions C39_cells_roundtrip.
Print Assumptions C39_cells_monotone.
Print Assumptions C39_halo_coordinate.
Print Assumptions C39_halo_data.
Print Assumptions C39_uneven_coordinate_refuted.
