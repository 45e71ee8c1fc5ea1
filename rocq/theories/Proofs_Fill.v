From Verif Require Import Base Model_Rescale Proofs_Rescale Model_Fill Spec_Fill.
Local Open Scope Q_scope.

Lemma known_points_spec valid data k v : In (k, v) (known_points valid data) <-> known_in data k v /\ nth k valid true = true.
Proof.
  unfold known_points, known_in. rewrite in_flat_map. split.
  - intros (i & I & H). apply in_seq in I. destruct (nth i data None) as [x|] eqn:E; [|destruct H]. destruct (nth i valid true) eqn:V; [|destruct H].
    destruct H as [H|[]]. injection H as <- <-. repeat split; [lia|assumption|assumption].
  - intros ((L & E) & V). exists k. split; [apply in_seq; lia|]. rewrite E, V. left. reflexivity.
Qed.
Lemma interp_length g limit m valid data : length (interpolate_missing g limit m valid data) = length data.
Proof. unfold interpolate_missing. rewrite map_length, seq_length. reflexivity. Qed.
Lemma interp_known g limit m valid data i v : nth i data None = Some v -> nth i (interpolate_missing g limit m valid data) None = Some v.
Proof.
  intro H. destruct (Nat.lt_ge_cases i (length data)) as [L|L]; [|rewrite nth_overflow in H by exact L; discriminate].
  unfold interpolate_missing. rewrite nth_map_seq by exact L. rewrite H. reflexivity.
Qed.
(** What a missing point gets. *)
Lemma interp_missing g limit m valid data i : (i < length data)%nat -> nth i data None = None ->
  nth i (interpolate_missing g limit m valid data) None =
  match known_points valid data with
  | [] => None
  | k => match g (length data) k with
         | None => None
         | Some f => option_map (fun v => match limit with None => v | Some l => clip_limit m v (nth i l 0) end) (nth i f None)
         end
  end.
Proof.
  intros L H. unfold interpolate_missing. rewrite nth_map_seq by exact L. rewrite H.
  set (k := known_points valid data). destruct limit as [l|].
  - rewrite nth_map_seq by exact L. rewrite H. destruct k as [|p k]; [rewrite H; reflexivity|]. destruct (g _ _) as [f|]; [|rewrite H; reflexivity].
    destruct (nth i f None); reflexivity.
  - destruct k as [|p k]; [exact H|]. destruct (g _ _) as [f|]; [|exact H]. destruct (nth i f None); reflexivity.
Qed.
Lemma clip_range_in k v : k <> [] -> exists lo hi, In lo k /\ In hi k /\ (forall x, In x k -> lo <= x <= hi) /\ lo <= clip_range k v <= hi.
Proof.
  destruct k as [|x l]; [intro H; destruct (H eq_refl)|]. intros _. unfold clip_range.
  destruct (qminl_in x l) as (lo & Hlo & Elo), (qmaxl_in x l) as (hi & Hhi & Ehi). exists lo, hi. split; [exact Hlo|]. split; [exact Hhi|].
  assert (B : forall y, In y (x :: l) -> lo <= y <= hi) by (intros y Y; rewrite <- Elo, <- Ehi; split; [apply qminl_le; exact Y|apply qmaxl_ge; exact Y]).
  split; [exact B|]. specialize (B lo Hlo). rewrite Elo, Ehi. split; [apply Q.min_glb; [apply Q.le_max_r|apply B]|apply Q.le_min_r].
Qed.
Lemma known_values_in d v : In v (known_values d) <-> exists i, known_in d i v.
Proof.
  unfold known_values, known_in. rewrite in_flat_map. split.
  - intros (o & I & H). destruct o as [x|]; [|destruct H]. destruct H as [->|[]]. destruct (In_nth d (Some v) None I) as (i & L & E). exists i. auto.
  - intros (i & L & E). exists (Some v). split; [rewrite <- E; apply nth_In; exact L|left; reflexivity].
Qed.
Lemma existsb_none (d : list (option Q)) : existsb (fun o : option Q => match o with None => true | _ => false end) d = false <-> forall i, (i < length d)%nat -> nth i d None <> None.
Proof.
  induction d as [|o d IH]; cbn; [split; [intros _ i H; lia|reflexivity]|]. destruct o as [x|]; cbn.
  - rewrite IH. split; [intros H [|i] L; [discriminate|apply H; lia]|]. intros H i L. apply (H (S i)). lia.
  - split; [discriminate|]. intro H. destruct (H 0%nat); [lia|reflexivity].
Qed.

(** ** One slice filled from the reference *)
Section Slice.
  Variables (linear nearest : griddata) (limit : option (list Q)) (m : bool) (c : list (option Q)) (r : list Q).
  Hypothesis L : length r = length c.
  Let difference := zipw (fun o x => match o with Some v => Some (x - v) | None => None end) c r.
  Lemma diff_length : length difference = length c.
  Proof. unfold difference. rewrite zipw_length; lia. Qed.
  Lemma diff_nth i : nth i difference None = match nth i c None with Some v => Some (nth i r 0 - v) | None => None end.
  Proof.
    destruct (Nat.lt_ge_cases i (length c)) as [H|H]; [|rewrite !nth_overflow by (rewrite ?diff_length; exact H); reflexivity].
    unfold difference. rewrite zipw_nth with (da := None) (db := 0) by lia. destruct (nth i c None); reflexivity.
  Qed.
  Lemma diff_known i v : known_in difference i v <-> exists x, known_in c i x /\ v = nth i r 0 - x.
  Proof.
    unfold known_in. rewrite diff_length, diff_nth. split.
    - intros [A B]. destruct (nth i c None) as [x|] eqn:E; [|discriminate]. injection B as <-. exists x. auto.
    - intros (x & [A B] & ->). rewrite B. auto.
  Qed.
  Lemma fill_length : length (fill_slice linear nearest limit m c r) = length c.
  Proof. unfold fill_slice. rewrite map_length, seq_length. reflexivity. Qed.
  Lemma fill_known i v : nth i c None = Some v -> nth i (fill_slice linear nearest limit m c r) None = Some v.
  Proof.
    intro H. destruct (Nat.lt_ge_cases i (length c)) as [B|B]; [|rewrite nth_overflow in H by exact B; discriminate].
    unfold fill_slice. rewrite nth_map_seq by exact B. rewrite H. reflexivity.
  Qed.
  Lemma fill_missing i w : (i < length c)%nat -> nth i c None = None -> nth i (fill_slice linear nearest limit m c r) None = Some w ->
    (exists k x, known_in c k x) /\ exists d, w = (match limit with None => nth i r 0 - clip_range (known_values difference) d | Some l => clip_limit m (nth i r 0 - clip_range (known_values difference) d) (nth i l 0) end).
  Proof.
    intros B H. unfold fill_slice. rewrite nth_map_seq by exact B. rewrite H. fold difference.
    set (inv := map _ c). set (d1 := interpolate_missing linear None true (map negb inv) difference).
    assert (K0 : (exists k x, known_in c k x) \/ forall v, known_points (map negb inv) difference = [] /\ nth v d1 None = None).
    { destruct (known_points (map negb inv) difference) as [|[k v] ks] eqn:E.
      - assert (AN : forall k, (k < length difference)%nat -> nth k difference None = None).
        { intros k Hk. destruct (nth k difference None) as [x|] eqn:X; [|reflexivity]. exfalso.
          assert (I : In (k, x) (known_points (map negb inv) difference)).
          { apply known_points_spec. split; [split; assumption|]. rewrite diff_length in Hk. rewrite diff_nth in X. unfold inv.
            rewrite nth_map_lt with (d := false) by (rewrite map_length; exact Hk). rewrite nth_map_lt with (d := None) by exact Hk. destruct (nth k c None); [reflexivity|discriminate]. }
          rewrite E in I. destruct I. }
        right. intro v. split; [reflexivity|]. destruct (Nat.lt_ge_cases v (length difference)) as [Hv|Hv]; [|apply nth_overflow; unfold d1; rewrite interp_length; exact Hv].
        unfold d1. rewrite interp_missing by (try apply AN; exact Hv). rewrite E. reflexivity.
      - left. assert (I : In (k, v) (known_points (map negb inv) difference)) by (rewrite E; left; reflexivity). apply known_points_spec in I. destruct I as [I _].
        apply diff_known in I. destruct I as (x & I & _). eauto. }
    set (d2 := if existsb _ d1 then _ else d1).
    assert (L1 : length d1 = length c) by (unfold d1; rewrite interp_length; exact diff_length).
    assert (L2 : length d2 = length c) by (unfold d2; destruct (existsb _ d1); [rewrite interp_length|]; exact L1).
    rewrite nth_map_lt with (d := None) by lia. destruct (nth i d2 None) as [x|] eqn:X; cbn [option_map]; [|discriminate]. intro E. injection E as <-. split; [|exists x; destruct limit; reflexivity].
    destruct K0 as [K0|K0]; [exact K0|]. exfalso. unfold d2 in X. destruct (existsb _ d1); [|rewrite (proj2 (K0 i)) in X; discriminate].
    assert (N : known_points (map (fun o : option Q => match o with None => false | _ => true end) d1) d1 = []).
    { destruct (known_points _ d1) as [|[k v] ks] eqn:E; [reflexivity|]. assert (I : In (k, v) (known_points (map (fun o : option Q => match o with None => false | _ => true end) d1) d1)) by (rewrite E; left; reflexivity).
      apply known_points_spec in I. destruct I as [[_ I] _]. rewrite (proj2 (K0 k)) in I. discriminate. }
    rewrite interp_missing in X by (try apply K0; lia). rewrite N in X. discriminate.
  Qed.
  Lemma fill_complete W i : is_nearest W nearest -> (exists k x, known_in c k x) -> (i < length c)%nat -> nth i (fill_slice linear nearest limit m c r) None <> None.
  Proof.
    intros N (k & x & K) B. unfold fill_slice. rewrite nth_map_seq by exact B. destruct (nth i c None) as [v|] eqn:H; [discriminate|]. fold difference.
    set (inv := map _ c). set (d1 := interpolate_missing linear None true (map negb inv) difference).
    set (d2 := if existsb _ d1 then _ else d1).
    assert (L1 : length d1 = length c) by (unfold d1; rewrite interp_length; exact diff_length).
    assert (L2 : length d2 = length c) by (unfold d2; destruct (existsb _ d1); [rewrite interp_length|]; exact L1).
    rewrite nth_map_lt with (d := None) by lia.
    assert (KD : nth k d1 None = Some (nth k r 0 - x)) by (unfold d1; apply interp_known; rewrite diff_nth; destruct K as [_ ->]; reflexivity).
    assert (X : nth i d2 None <> None).
    { unfold d2. destruct (existsb _ d1) eqn:E; [|apply (proj1 (existsb_none d1) E); lia].
      destruct (nth i d1 None) as [y|] eqn:Y; [rewrite (interp_known nearest None true _ d1 i y Y); discriminate|].
      rewrite interp_missing by (try exact Y; lia).
      assert (I : In (k, nth k r 0 - x) (known_points (map (fun o : option Q => match o with None => false | _ => true end) d1) d1)).
      { destruct K as [K1 K2]. apply known_points_spec. split; [split; [lia|exact KD]|]. rewrite nth_map_lt with (d := None) by lia. rewrite KD. reflexivity. }
      destruct (known_points _ d1) as [|p ps] eqn:KP; [destruct I|]. destruct (N (length d1) (p :: ps) ltac:(discriminate)) as (f & -> & Lf & P).
      destruct (P i ltac:(lia)) as (v & -> & _). discriminate. }
    destruct (nth i d2 None); [discriminate|contradiction].
  Qed.
End Slice.

(** The specification of nearest-neighbour interpolation can be met. *)
Fixpoint argmin (w i : nat) (best : nat * Q) (l : list (nat * Q)) : nat * Q :=
  match l with [] => best | p :: r => argmin w i (if (distance2 w i (fst p) <? distance2 w i (fst best))%Z then p else best) r end.
Lemma argmin_spec w i l : forall best, In (argmin w i best l) (best :: l) /\ forall p, In p (best :: l) -> (distance2 w i (fst (argmin w i best l)) <= distance2 w i (fst p))%Z.
Proof.
  induction l as [|q l IH]; intro best; cbn [argmin].
  - split; [left; reflexivity|]. intros p [<-|[]]. lia.
  - destruct (Z.ltb_spec (distance2 w i (fst q)) (distance2 w i (fst best))) as [H|H].
    + destruct (IH q) as [A B]. split; [right; exact A|]. intros p [<-|P]; [specialize (B q (or_introl eq_refl)); lia|apply B; exact P].
    + destruct (IH best) as [A B]. split; [destruct A as [A|A]; [left; exact A|right; right; exact A]|]. intros p [<-|[<-|P]]; [apply B; left; reflexivity|specialize (B best (or_introl eq_refl)); lia|apply B; right; exact P].
Qed.
Definition nearest_grid (w : nat) : griddata := fun n known => match known with [] => None | p :: r => Some (map (fun i => Some (snd (argmin w i p r))) (seq 0 n)) end.
Lemma nearest_grid_ok w : is_nearest w (nearest_grid w).
Proof.
  intros n [|p l] H; [destruct (H eq_refl)|]. eexists; split; [reflexivity|]. split; [rewrite map_length, seq_length; reflexivity|].
  intros i Hi. rewrite nth_map_seq by exact Hi. eexists; split; [reflexivity|]. destruct (argmin_spec w i l p) as [A B]. exists (fst (argmin w i p l)). split.
  - rewrite <- surjective_pairing. exact A.
  - intros k' v' K. apply (B (k', v') K).
Qed.
