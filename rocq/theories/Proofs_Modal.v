From Verif Require Import Base Model_Threshold Spec_Tree Model_Tree Model_Temporal Proofs_Temporal Spec_Modal Model_Modal Spec_ModalTree Proofs_TreeRoutes Proofs_TreeMissing Proofs_TreeMore.
Local Open Scope list_scope.
Local Open Scope Z_scope.

Lemma fold_best l us : (forall z, In z us -> In z l) -> forall b done,
  StronglySorted Z.lt (done ++ us) ->
  ((done = [] /\ b = (0, 0%nat)) \/ (In (fst b) done /\ snd b = zcount (fst b) l /\
     forall z, In z done -> (zcount z l < snd b)%nat \/ (zcount z l = snd b /\ fst b <= z))) ->
  let b' := fold_left (best_of l) us b in
  (done ++ us = [] /\ b' = (0, 0%nat)) \/ (In (fst b') (done ++ us) /\ snd b' = zcount (fst b') l /\
     forall z, In z (done ++ us) -> (zcount z l < snd b')%nat \/ (zcount z l = snd b' /\ fst b' <= z)).
Proof.
  induction us as [|u us IH]; intros HIN b done HS HB; simpl.
  - rewrite app_nil_r in *. exact HB.
  - assert (EA : done ++ u :: us = (done ++ [u]) ++ us) by (rewrite <- app_assoc; reflexivity). rewrite EA in *. clear EA.
    apply IH; [intros z Hz; apply HIN; right; exact Hz|exact HS|]. right.
    assert (Hu : (0 < zcount u l)%nat) by (apply count_occ_In, HIN; left; reflexivity).
    assert (Hlt : forall z, In z done -> z < u).
    { intros z Hz. clear -HS Hz. rewrite <- app_assoc in HS. induction done as [|y done IH]; [destruct Hz|]. simpl in HS. inversion HS as [|? ? H1 H2]; subst.
      destruct Hz as [<-|Hz]; [|apply IH; trivial]. rewrite Forall_forall in H2. apply H2. apply in_or_app. right. left. reflexivity. }
    unfold best_of. destruct (Nat.ltb_spec (snd b) (zcount u l)) as [Hb|Hb]; simpl.
    + split; [apply in_or_app; right; left; reflexivity|]. split; [reflexivity|]. intros z Hz. apply in_app_or in Hz. destruct Hz as [Hz|[<-|[]]]; [|right; split; [reflexivity|lia]].
      left. destruct HB as [[-> _]|[_ [_ HB]]]; [destruct Hz|]. destruct (HB z Hz) as [H|[H _]]; lia.
    + destruct HB as [[_ ->]|[B1 [B2 B3]]]; [simpl in Hb; lia|]. split; [apply in_or_app; left; exact B1|]. split; [exact B2|].
      intros z Hz. apply in_app_or in Hz. destruct Hz as [Hz|[<-|[]]]; [apply B3; exact Hz|].
      specialize (Hlt _ B1). destruct (Nat.eq_dec (zcount u l) (snd b)) as [E|E]; [right; split; [exact E|lia]|left; lia].
Qed.
Lemma stats_mode_spec l : l <> [] -> let m := stats_mode l in
  In (fst m) l /\ snd m = zcount (fst m) l /\ forall z, In z l -> (zcount z l < snd m)%nat \/ (zcount z l = snd m /\ fst m <= z).
Proof.
  intro Hne. assert (H := fold_best l (zsortu l) (fun z Hz => proj1 (zsortu_in l z) Hz) (0, 0%nat) [] (zsortu_sorted l) (or_introl (conj eq_refl eq_refl))).
  cbv zeta in *. change (fold_left (best_of l) (zsortu l) (0, 0%nat)) with (stats_mode l) in H. simpl app in H. destruct H as [[H _]|[H1 [H2 H3]]].
  - exfalso. destruct l as [|x l]; [congruence|]. assert (In x (zsortu (x :: l))) by (apply zsortu_in; left; reflexivity). rewrite H in H0. destruct H0.
  - split; [apply zsortu_in; exact H1|]. split; [exact H2|]. intros z Hz. apply H3, zsortu_in. exact Hz.
Qed.

Lemma count_shift k z l : zcount (k - z) (map (fun c => k - c) l) = occurrences z l.
Proof.
  unfold zcount, occurrences. induction l as [|x l IH]; [reflexivity|]. simpl.
  destruct (Z.eq_dec (k - x) (k - z)), (Z.eq_dec x z); try lia; rewrite IH; reflexivity.
Qed.
Lemma mode_shift k l : l <> [] -> let m := stats_mode (map (fun c => k - c) l) in is_mode l (k - fst m) /\ snd m = occurrences (k - fst m) l.
Proof.
  intro Hne. cbv zeta. destruct (stats_mode_spec (map (fun c => k - c) l)) as [H1 [H2 H3]]; [destruct l; [congruence|discriminate]|].
  set (m := stats_mode _) in *. apply in_map_iff in H1. destruct H1 as [r [Er Hr]]. replace (k - fst m) with r by lia.
  assert (E2 : snd m = occurrences r l) by (rewrite H2, <- Er; apply count_shift).
  split; [|exact E2]. split; [exact Hr|]. intros z Hz. rewrite <- E2, <- (count_shift k z l).
  destruct (H3 (k - z)) as [H|[H H']]; [apply in_map_iff; exists z; split; [reflexivity|exact Hz]|left; exact H|right; split; [exact H|lia]].
Qed.

Lemma is_mode_unique l r r' : is_mode l r -> is_mode l r' -> r = r'.
Proof. intros [H1 H2] [H3 H4]. destruct (H2 r' H3) as [A|[A A']], (H4 r H1) as [B|[B B']]; lia. Qed.
Lemma is_mode_perm l l' r : Permutation l l' -> is_mode l r -> is_mode l' r.
Proof.
  intros HP [H1 H2]. assert (E : forall z, occurrences z l = occurrences z l') by (intro z; unfold occurrences; apply (Permutation_count_occ Z.eq_dec); exact HP).
  split; [eapply Permutation_in; [exact HP|exact H1]|]. intros z Hz. rewrite <- !E. apply H2. eapply Permutation_in; [apply Permutation_sym; exact HP|exact Hz].
Qed.

Lemma aggregator_spec p l : l <> [] -> exists r, is_mode l r /\
  mode_aggregator p l = (if 10 * Z.of_nat (occurrences r l) <? 3 * Z.of_nat (length l) then mo_unset p else r).
Proof.
  intro Hne. unfold mode_aggregator. destruct (mode_shift (mo_max p) l Hne) as [H1 H2]. destruct (stats_mode _) as [m c]. simpl in *.
  exists (mo_max p - m). split; [exact H1|]. rewrite H2. destruct (_ <? _); [lia|reflexivity].
Qed.

(** groups *)
Lemma memz_in z l : memz z l = true <-> In z l.
Proof. unfold memz. rewrite existsb_exists. split; [intros [x [H E]]; apply Z.eqb_eq in E; subst; exact H|intro H; exists z; split; [exact H|apply Z.eqb_refl]]. Qed.
Lemma zleb_total a b : Z.leb a b = true \/ Z.leb b a = true.
Proof. destruct (Z.leb_spec a b); [left; reflexivity|right; apply Z.leb_le; lia]. Qed.

Definition lowest (data codes : list Z) : option Z := hd_error (isort Z.leb (filter (fun c => memz c codes) data)).
Lemma lowest_spec data codes : match lowest data codes with
  | None => forall z, In z data -> ~ In z codes
  | Some w => In w data /\ In w codes /\ forall z, In z data -> In z codes -> w <= z
  end.
Proof.
  unfold lowest. assert (HP := isort_perm Z.leb (filter (fun c => memz c codes) data)).
  assert (HS : StronglySorted Z.le (isort Z.leb (filter (fun c => memz c codes) data))).
  { apply (isort_sorted Z.leb Z.le); [intros x y H; apply Z.leb_le; exact H|intros x y H; apply Z.leb_gt in H; lia|intros x y z; apply Z.le_trans]. }
  assert (HI : forall z, In z (isort Z.leb (filter (fun c => memz c codes) data)) <-> In z data /\ In z codes).
  { intro z. split; intro H.
    - apply (Permutation_in _ (Permutation_sym HP)), filter_In in H. rewrite memz_in in H. exact H.
    - apply (Permutation_in _ HP), filter_In. rewrite memz_in. exact H. }
  destruct (isort Z.leb _) as [|w r]; simpl.
  - intros z H1 H2. apply (HI z). split; trivial.
  - destruct (proj1 (HI w) (or_introl eq_refl)) as [H1 H2]. split; [exact H1|]. split; [exact H2|]. intros z Hz Hc.
    inversion HS as [|? ? HS1 HS2]; subst. destruct (proj2 (HI z) (conj Hz Hc)) as [->|H]; [lia|]. rewrite Forall_forall in HS2. apply HS2. exact H.
Qed.
Definition rep1 (data codes : list Z) (c : Z) : Z := match lowest data codes with Some w => if memz c codes then w else c | None => c end.
Lemma group_one_map data codes : group_one data codes = map (rep1 data codes) data.
Proof.
  unfold group_one, rep1, lowest. destruct (isort Z.leb _) as [|w r]; simpl; [symmetry; apply map_id|reflexivity].
Qed.
Lemma lowest_perm data data' codes : Permutation data data' -> lowest data codes = lowest data' codes.
Proof.
  intro HP. assert (A := lowest_spec data codes). assert (B := lowest_spec data' codes).
  assert (HI : forall z, In z data <-> In z data') by (intro z; split; apply Permutation_in; [exact HP|apply Permutation_sym; exact HP]).
  destruct (lowest data codes) as [w|], (lowest data' codes) as [w'|]; trivial.
  - destruct A as [A1 [A2 A3]], B as [B1 [B2 B3]]. f_equal. apply Z.le_antisymm; [apply A3|apply B3]; trivial; apply HI; trivial.
  - destruct A as [A1 [A2 _]]. exfalso. apply (B w); [apply HI; exact A1|exact A2].
  - destruct B as [B1 [B2 _]]. exfalso. apply (A w'); [apply HI; exact B1|exact B2].
Qed.
Lemma group_fold_perm gs : forall data data', Permutation data data' -> Permutation (fold_left group_one gs data) (fold_left group_one gs data').
Proof.
  induction gs as [|g gs IH]; intros data data' HP; [exact HP|]. cbn [fold_left]. apply IH. rewrite !group_one_map.
  replace (map (rep1 data' g) data') with (map (rep1 data g) data'); [apply Permutation_map; exact HP|].
  apply map_ext. intro c. unfold rep1. rewrite (lowest_perm _ _ g HP). reflexivity.
Qed.
Lemma mode_of_perm k data data' : Permutation data data' -> stats_mode (map (fun c => k - c) data) = stats_mode (map (fun c => k - c) data').
Proof.
  intro HP. destruct data as [|x data].
  - apply Permutation_nil in HP. subst. reflexivity.
  - assert (N : data' <> []) by (intros ->; apply Permutation_sym, Permutation_nil in HP; discriminate).
    destruct (mode_shift k (x :: data)) as [A1 A2]; [discriminate|]. destruct (mode_shift k data' N) as [B1 B2].
    set (m := stats_mode (map (fun c => k - c) (x :: data))) in *. set (m' := stats_mode (map (fun c => k - c) data')) in *.
    assert (E : k - fst m = k - fst m') by (eapply is_mode_unique; [eapply is_mode_perm; [exact HP|exact A1]|exact B1]).
    assert (E2 : snd m = snd m').
    { rewrite A2, B2, E. unfold occurrences. apply (Permutation_count_occ Z.eq_dec). exact HP. }
    rewrite (surjective_pairing m), (surjective_pairing m'), E2. f_equal. lia.
Qed.
Definition unify1 (dn : list (Z * Z)) (c : Z) : Z := fold_left (fun c (kv : Z * Z) => if c =? snd kv then fst kv else c) dn c.
Lemma unify_map dn : forall data, unify dn data = map (unify1 dn) data.
Proof.
  unfold unify, unify1. induction dn as [|kv dn IH]; intro data; cbn [fold_left]; [symmetry; apply map_id|]. rewrite IH, map_map. reflexivity.
Qed.
Lemma aggregator_perm p data data' : Permutation data data' -> mode_aggregator p data = mode_aggregator p data'.
Proof. intro HP. unfold mode_aggregator. rewrite (mode_of_perm (mo_max p) _ _ HP), (Permutation_length HP). reflexivity. Qed.
Lemma group_codes_perm p data data' : Permutation data data' -> group_codes p data = group_codes p data'.
Proof. intro HP. unfold group_codes. rewrite (mode_of_perm (mo_max p) _ _ (group_fold_perm (mo_groups p) _ _ HP)). reflexivity. Qed.
Lemma modal_perm p data data' : Permutation data data' -> modal_process p data = modal_process p data'.
Proof.
  intro HP. unfold modal_process. rewrite !unify_map. apply (Permutation_map (unify1 (mo_night p))) in HP.
  set (u := map _ data) in *. set (u' := map _ data') in *. clearbody u u'. cbv zeta.
  assert (E : (let r := mode_aggregator p u in if r =? mo_unset p then group_codes p u else r) = (let r := mode_aggregator p u' in if r =? mo_unset p then group_codes p u' else r)).
  { rewrite (aggregator_perm p _ _ HP), (group_codes_perm p _ _ HP). reflexivity. }
  cbv zeta in E. assert (L := Permutation_length HP).
  destruct u as [|a [|b u]], u' as [|a' [|b' u']]; try discriminate L; try exact E. apply Permutation_length_1 in HP. exact HP.
Qed.

(** The groups of a tree. *)
Lemma group_add_in g c d : forall g' c', (exists cs, In (g', cs) (group_add g c d) /\ In c' cs) <-> (g' = g /\ c' = c) \/ (exists cs, In (g', cs) d /\ In c' cs).
Proof.
  induction d as [|[h cs] d IH]; intros g' c'; cbn [group_add].
  - split; [intros [cs [[E|[]] H]]; injection E as <- <-; destruct H as [<-|[]]; left; split; reflexivity|].
    intros [[-> ->]|[cs [[] _]]]. exists [c]. split; left; reflexivity.
  - destruct (String.eqb_spec g h) as [<-|N].
    + split.
      * intros [cs' [[E|H] Hc]]; [injection E as <- <-; apply in_app_or in Hc; destruct Hc as [Hc|[<-|[]]]; [right; exists cs; split; [left; reflexivity|exact Hc]|left; split; reflexivity]|].
        right. exists cs'. split; [right; exact H|exact Hc].
      * intros [[-> ->]|[cs' [[E|H] Hc]]].
        { exists (cs ++ [c])%list. split; [left; reflexivity|apply in_or_app; right; left; reflexivity]. }
        { injection E as <- <-. exists (cs ++ [c])%list. split; [left; reflexivity|apply in_or_app; left; exact Hc]. }
        { exists cs'. split; [right; exact H|exact Hc]. }
    + split.
      * intros [cs' [[E|H] Hc]]; [injection E as <- <-; right; exists cs; split; [left; reflexivity|exact Hc]|].
        destruct (proj1 (IH g' c')) as [K|[cs2 [H2 Hc2]]]; [exists cs'; split; trivial|left; exact K|right; exists cs2; split; [right; exact H2|exact Hc2]].
      * intros [K|[cs' [[E|H] Hc]]].
        { destruct (proj2 (IH g' c') (or_introl K)) as [cs2 [H2 Hc2]]. exists cs2. split; [right; exact H2|exact Hc2]. }
        { injection E as <- <-. exists cs. split; [left; reflexivity|exact Hc]. }
        { destruct (proj2 (IH g' c')) as [cs2 [H2 Hc2]]; [right; exists cs'; split; trivial|]. exists cs2. split; [right; exact H2|exact Hc2]. }
Qed.
Lemma group_add_keys g c d : NoDup (map fst d) -> NoDup (map fst (group_add g c d)).
Proof.
  assert (HI : forall d h, In h (map fst (group_add g c d)) -> h = g \/ In h (map fst d)).
  { clear d. induction d as [|[h cs] d IH]; intros x Hx; cbn [group_add] in Hx; [destruct Hx as [<-|[]]; left; reflexivity|].
    destruct (String.eqb g h); [right; exact Hx|]. destruct Hx as [<-|Hx]; [right; left; reflexivity|]. destruct (IH x Hx) as [->|K]; [left; reflexivity|right; right; exact K]. }
  induction d as [|[h cs] d IH]; intro HN; cbn [group_add]; [constructor; [intros []|constructor]|]. inversion HN as [|? ? H1 H2]; subst.
  destruct (String.eqb_spec g h) as [<-|N]; [exact HN|]. cbn [map fst]. constructor; [|apply IH; exact H2].
  intro K. destruct (HI _ _ K) as [->|K']; [apply N; reflexivity|exact (H1 K')].
Qed.
Lemma code_groups_fold l : forall d, NoDup (map fst d) ->
  let d' := fold_left (fun d (kq : string * query) => match snd kq with Leaf c _ (Some g) => group_add g c d | _ => d end) l d in
  NoDup (map fst d') /\ forall g c, (exists cs, In (g, cs) d' /\ In c cs) <-> (exists cs, In (g, cs) d /\ In c cs) \/ exists n x, In (n, Leaf c x (Some g)) l.
Proof.
  induction l as [|[n q] l IH]; intros d HN; cbv zeta in *; cbn [fold_left snd].
  - split; [exact HN|]. intros g c. split; [intro H; left; exact H|intros [H|[n [x []]]]; exact H].
  - assert (HSKIP : (forall c x g, q <> Leaf c x (Some g)) -> forall g c, (exists n0 x, In (n0, Leaf c x (Some g)) ((n, q) :: l)) <-> exists n0 x, In (n0, Leaf c x (Some g)) l).
    { intros Hq g c. split; [intros [n0 [x [E|H]]]; [injection E as _ E; exfalso; exact (Hq _ _ _ E)|exists n0, x; exact H]|intros [n0 [x H]]; exists n0, x; right; exact H]. }
    destruct q as [c x [g|]|dn].
    + destruct (IH _ (group_add_keys g c d HN)) as [I1 I2]. split; [exact I1|]. intros g' c'. rewrite I2, group_add_in. split.
      * intros [[[-> ->]|H]|[n0 [y H]]]; [right; exists n, x; left; reflexivity|left; exact H|right; exists n0, y; right; exact H].
      * intros [H|[n0 [y [E|H]]]]; [left; right; exact H|injection E as <- <- <- <-; left; left; split; reflexivity|right; exists n0, y; exact H].
    + destruct (IH _ HN) as [I1 I2]. split; [exact I1|]. intros g' c'. rewrite I2, HSKIP; [reflexivity|intros; discriminate].
    + destruct (IH _ HN) as [I1 I2]. split; [exact I1|]. intros g' c'. rewrite I2, HSKIP; [reflexivity|intros; discriminate].
Qed.

Lemma tree_groups (t : tree) : proper_leaves t -> (
  (forall cs, In cs (map snd (code_groups t)) -> exists g, forall c, In c cs <-> in_group t g c) /\
  (forall g c, in_group t g c -> exists cs, In cs (map snd (code_groups t)) /\ In c cs /\ forall c', In c' cs <-> in_group t g c'))%type.
Proof.
  intro PL. destruct (code_groups_fold t [] (NoDup_nil _)) as [HN HG]. fold (code_groups t) in HN, HG.
  assert (HG' : forall g c, (exists cs, In (g, cs) (code_groups t) /\ In c cs) <-> in_group t g c).
  { intros g c. rewrite HG. unfold in_group. split.
    - intros [[cs [[] _]]|[n [x H]]]. exists n, x. apply assoc_nodup; [apply (pl_names t PL)|exact H].
    - intros [n [x H]]. right. exists n, x. apply assoc_In. exact H. }
  assert (HU : forall g cs, In (g, cs) (code_groups t) -> forall c, In c cs <-> in_group t g c).
  { intros g cs H c. rewrite <- HG'. split; [intro Hc; exists cs; split; trivial|]. intros [cs' [H1 H2]].
    assert (E : cs = cs'); [|subst; exact H2]. assert (A := assoc_nodup g cs _ HN H). assert (B := assoc_nodup g cs' _ HN H1). congruence. }
  split.
  - intros cs H. apply in_map_iff in H. destruct H as [[g cs'] [E H]]. simpl in E. subst. exists g. apply HU. exact H.
  - intros g c H. apply HG' in H. destruct H as [cs [H1 H2]]. exists cs. split; [apply in_map_iff; exists (g, cs); split; [reflexivity|exact H1]|].
    split; [exact H2|apply HU; exact H1].
Qed.

(** Folding over pairwise disjoint groups. *)
Definition rep (gs : list (list Z)) (data : list Z) (c c' : Z) : Prop :=
  ((forall g, In g gs -> ~ In c g) /\ c' = c) \/
  (exists g, In g gs /\ In c g /\ In c' g /\ In c' data /\ forall z, In z data -> In z g -> c' <= z).
Definition disjoint (gs : list (list Z)) (g : list Z) : Prop := forall h c, In h gs -> In c h -> In c g -> False.
Lemma Forall2_in_l {A B} (R : A -> B -> Prop) l l' : Forall2 R l l' -> forall x, In x l -> exists y, In y l' /\ R x y.
Proof. induction 1 as [|x y l l' H HF IH]; intros z Hz; [destruct Hz|destruct Hz as [<-|Hz]]; [exists y; split; [left; reflexivity|exact H]|]. destruct (IH z Hz) as [w [W1 W2]]. exists w. split; [right; exact W1|exact W2]. Qed.
Lemma Forall2_in_r {A B} (R : A -> B -> Prop) l l' : Forall2 R l l' -> forall y, In y l' -> exists x, In x l /\ R x y.
Proof. induction 1 as [|x y l l' H HF IH]; intros z Hz; [destruct Hz|destruct Hz as [<-|Hz]]; [exists x; split; [left; reflexivity|exact H]|]. destruct (IH z Hz) as [w [W1 W2]]. exists w. split; [right; exact W1|exact W2]. Qed.

Lemma group_step gs g data cur : disjoint gs g -> Forall2 (rep gs data) data cur -> Forall2 (rep (gs ++ [g]) data) data (group_one cur g).
Proof.
  intros HD HF. rewrite group_one_map.
  assert (A : forall c, In c g -> (In c data <-> In c cur)).
  { intros c Hc. split; intro H.
    - destruct (Forall2_in_l _ _ _ HF c H) as [c' [H' [[_ ->]|[h [Hh [Hch _]]]]]]; [exact H'|]. exfalso. exact (HD h c Hh Hch Hc).
    - destruct (Forall2_in_r _ _ _ HF c H) as [c' [H' [[_ ->]|[h [Hh [_ [Hch _]]]]]]]; [exact H'|]. exfalso. exact (HD h c Hh Hch Hc). }
  assert (L := lowest_spec cur g). unfold rep1. set (lw := lowest cur g) in *. clearbody lw.
  assert (B : forall c c', In c data -> rep gs data c c' -> rep (gs ++ [g]) data c (match lw with Some w => if memz c' g then w else c' | None => c' end)).
  { intros c c' Hc [[HN ->]|[h [Hh [H1 [H2 [H3 H4]]]]]].
    - destruct (memz c g) eqn:E.
      + apply memz_in in E. destruct lw as [w|].
        * right. exists g. split; [apply in_or_app; right; left; reflexivity|]. destruct L as [L1 [L2 L3]]. split; [exact E|]. split; [exact L2|].
          split; [apply A; trivial|]. intros z Hz Hg. apply L3; [apply A|]; trivial.
        * exfalso. apply (L c); [apply A; trivial|exact E].
      + assert (Hn : ~ In c g) by (rewrite <- memz_in; congruence).
        left. split; [|destruct lw; reflexivity]. intros h Hh. apply in_app_or in Hh. destruct Hh as [Hh|[<-|[]]]; [apply HN; exact Hh|exact Hn].
    - assert (E : memz c' g = false) by (destruct (memz c' g) eqn:E; [|reflexivity]; exfalso; apply memz_in in E; exact (HD h c' Hh H2 E)).
      rewrite E. right. exists h. split; [apply in_or_app; left; exact Hh|]. replace (match lw with Some _ => c' | None => c' end) with c' by (destruct lw; reflexivity).
      split; [exact H1|]. split; [exact H2|]. split; [exact H3|exact H4]. }
  assert (G : forall l l', (forall c, In c l -> In c data) -> Forall2 (rep gs data) l l' ->
    Forall2 (rep (gs ++ [g]) data) l (map (fun c' => match lw with Some w => if memz c' g then w else c' | None => c' end) l')).
  { intros l l' HI HF'. induction HF' as [|c c' l l' H HF' IH]; [constructor|]. cbn [map]. constructor.
    - apply B; [apply HI; left; reflexivity|exact H].
    - apply IH. intros z Hz. apply HI. right. exact Hz. }
  apply G; [trivial|exact HF].
Qed.
Lemma group_fold data : forall gs2 gs1 cur, (forall a g b, gs1 ++ gs2 = a ++ g :: b -> disjoint a g) ->
  Forall2 (rep gs1 data) data cur -> Forall2 (rep (gs1 ++ gs2) data) data (fold_left group_one gs2 cur).
Proof.
  induction gs2 as [|g gs2 IH]; intros gs1 cur HD HF; cbn [fold_left]; [rewrite app_nil_r; exact HF|].
  replace (gs1 ++ g :: gs2) with ((gs1 ++ [g]) ++ gs2) by (rewrite <- app_assoc; reflexivity).
  apply IH.
  - intros a h b E. apply (HD a h b). rewrite <- E, <- app_assoc. reflexivity.
  - apply group_step; [apply (HD gs1 g gs2); reflexivity|exact HF].
Qed.

Lemma groups_disjoint t : proper_leaves t -> forall a g b, map snd (code_groups t) = a ++ g :: b -> disjoint a g.
Proof.
  intro PL. destruct (code_groups_fold t [] (NoDup_nil _)) as [HN HG]. fold (code_groups t) in HN, HG.
  assert (HX : forall g c, (exists cs, In (g, cs) (code_groups t) /\ In c cs) -> in_group t g c).
  { intros g c H. apply HG in H. destruct H as [[cs [[] _]]|[n [x H]]]. exists n, x. apply assoc_nodup; [apply (pl_names t PL)|exact H]. }
  clear HG. intros a g b E h c Hh Hc1 Hc2.
  apply map_eq_app in E. destruct E as [l1 [l2 [E1 [E2 E3]]]]. destruct l2 as [|[k g'] l2]; [discriminate|]. cbn [map snd] in E3. injection E3 as -> E3.
  rewrite <- E2 in Hh. apply in_map_iff in Hh. destruct Hh as [[k' h'] [Ek Hh]]. simpl in Ek. subst h'.
  assert (I1 : in_group t k c) by (apply HX; exists g; split; [rewrite E1; apply in_or_app; right; left; reflexivity|exact Hc2]).
  assert (I2 : in_group t k' c) by (apply HX; exists h; split; [rewrite E1; apply in_or_app; left; exact Hh|exact Hc1]).
  destruct I1 as [n [x I1]], I2 as [n' [x' I2]]. assert (n = n') by (eapply (pl_codes t PL); eauto). subst n'.
  assert (k = k') by congruence. subst k'. rewrite E1, map_app in HN. cbn [map fst] in HN. apply NoDup_remove_2 in HN. apply HN, in_or_app. left.
  change k with (fst (k, h)). apply in_map. exact Hh.
Qed.
Lemma grouped_spec t data : proper_leaves t -> Forall2 (regrouped t data) data (fold_left group_one (map snd (code_groups t)) data).
Proof.
  intro PL. assert (H := group_fold data (map snd (code_groups t)) [] data (groups_disjoint t PL)). simpl app in H.
  assert (H0 : Forall2 (rep [] data) data data).
  { assert (G : forall l, Forall2 (rep [] data) l l) by (intro l; induction l; constructor; [left; split; [intros g []|reflexivity]|assumption]). apply G. }
  specialize (H H0). destruct (tree_groups t PL) as [T1 T2].
  assert (G : forall l l', Forall2 (rep (map snd (code_groups t)) data) l l' -> Forall2 (regrouped t data) l l'); [|apply G; exact H]. clear H. intros l l' H.
  induction H as [|c c' l l' H HF IH]; constructor; [|exact IH]. destruct H as [[H ->]|[cs [H1 [H2 [H3 [H4 H5]]]]]].
  - left. split; [|reflexivity]. intros g Hg. destruct (T2 g c Hg) as [cs [C1 [C2 _]]]. exact (H cs C1 C2).
  - destruct (T1 cs H1) as [g Hg]. right. exists g. split; [apply Hg; exact H2|]. split; [apply Hg; exact H3|]. split; [exact H4|].
    intros z Hz Hzg. apply H5; [exact Hz|apply Hg; exact Hzg].
Qed.

(** Day and night. *)
Lemma night_map_in t m : proper_leaves t -> day_night_map t = Ok m -> forall k v, In (k, v) m <-> night_of t k v.
Proof.
  intros PL E. unfold day_night_map in E.
  destruct (map_fold t t) with (m := @nil (Z * Z)) as [m' [E' [N [L [_ K]]]]].
  { intros n c tgt g H. destruct (pl_night t PL n c tgt g (assoc_nodup _ _ _ (pl_names t PL) H)) as [c' [g' Et]]. exists c'. unfold leaf_code. rewrite Et. reflexivity. }
  { constructor. }
  rewrite E' in E. apply Ok_inj in E. subst m'. intros k v. split.
  - intro H. apply (in_lookz _ _ _ N) in H. destruct (L k v H) as [X|[n [tgt [g [H1 H2]]]]]; [discriminate|].
    apply (assoc_nodup _ _ _ (pl_names t PL)) in H1. destruct (pl_night t PL n k tgt g H1) as [c' [g' Et]].
    unfold leaf_code in H2. rewrite Et in H2. injection H2 as ->. exists n, tgt, g, None, g'. split; trivial.
  - intros [n [tgt [g [x [g' [H1 H2]]]]]]. assert (H3 := K n k tgt g (assoc_In _ _ _ H1)). destruct (key_lookz k m H3) as [w Hw].
    destruct (L k w Hw) as [X|[n2 [tgt2 [g2 [H4 H5]]]]]; [discriminate|]. apply (assoc_nodup _ _ _ (pl_names t PL)) in H4.
    assert (n = n2) by (eapply (pl_codes t PL); eauto). subst n2. rewrite H1 in H4. injection H4 as <- <-. unfold leaf_code in H5. rewrite H2 in H5.
    injection H5 as <-. apply lookz_in. exact Hw.
Qed.
Lemma night_day_disjoint t k v k' : proper_leaves t -> night_of t k v -> night_of t k' k -> False.
Proof.
  intros PL [n [tgt [g [x [g' [H1 H2]]]]]] [n' [tgt' [h [x' [h' [H3 H4]]]]]].
  assert (n = tgt') by (eapply (pl_codes t PL); eauto). subst tgt'. destruct (pl_night t PL _ _ _ _ H3) as [c' [g2 E]]. congruence.
Qed.
Lemma night_unique t k k' v : proper_leaves t -> night_of t k v -> night_of t k' v -> k = k'.
Proof.
  intros PL [n [tgt [g [x [g' [H1 H2]]]]]] [n' [tgt' [h [x' [h' [H3 H4]]]]]].
  assert (tgt = tgt') by (eapply (pl_codes t PL); eauto). subst tgt'. assert (n = n') by (eapply (pl_one t PL); eauto). subst. congruence.
Qed.
Lemma unify1_spec m (P : Z -> Z -> Prop) : (forall k v, In (k, v) m -> P k v) -> (forall k v k', P k v -> P k' k -> False) -> (forall k k' v, P k v -> P k' v -> k = k') ->
  forall c, (exists k, In (k, c) m /\ unify1 m c = k) \/ ((forall k, ~ In (k, c) m) /\ unify1 m c = c).
Proof.
  intros HP HD HU. unfold unify1. induction m as [|[k v] m IH]; intro c; cbn [fold_left fst snd]; [right; split; [intros k []|reflexivity]|].
  assert (IH' := IH (fun a b H => HP a b (or_intror H))). destruct (Z.eqb_spec c v) as [->|N].
  - left. exists k. split; [left; reflexivity|]. destruct (IH' k) as [[k2 [H _]]|[_ H]]; [|exact H]. exfalso.
    apply (HD k v k2); apply HP; [left; reflexivity|right; exact H].
  - destruct (IH' c) as [[k2 [H E]]|[H E]]; [left; exists k2; split; [right; exact H|exact E]|right; split; [|exact E]].
    intros k2 [K|K]; [injection K as _ K; congruence|exact (H k2 K)].
Qed.
Lemma unify1_counted t m c : proper_leaves t -> day_night_map t = Ok m -> counted_as t c (unify1 m c).
Proof.
  intros PL E. assert (HM := night_map_in t m PL E).
  destruct (unify1_spec m (night_of t)) with (c := c) as [[k [H1 H2]]|[H1 H2]].
  - intros k v H. apply HM. exact H.
  - intros k v k' A B. exact (night_day_disjoint t k v k' PL A B).
  - intros k k' v A B. eapply night_unique; eauto.
  - left. rewrite H2. apply HM. exact H1.
  - right. split; [|exact H2]. intros k H. apply HM in H. exact (H1 k H).
Qed.
Lemma counted_fun t c k k' : proper_leaves t -> counted_as t c k -> counted_as t c k' -> k = k'.
Proof.
  intros PL [H|[H ->]] [H'|[H' ->]]; [eapply night_unique; eauto|exfalso; eapply H'; eauto|exfalso; eapply H; eauto|reflexivity].
Qed.

Lemma zminl_le x l : zminl x l <= x /\ forall z, In z l -> zminl x l <= z.
Proof.
  unfold zminl. revert x. induction l as [|y l IH]; intro x; cbn [fold_left]; [split; [lia|intros z []]|].
  destruct (IH (Z.min x y)) as [A B]. split; [lia|]. intros z [<-|Hz]; [lia|apply B; exact Hz].
Qed.
Lemma modal_init_inv t p : modal_init t = Ok p -> day_night_map t = Ok (mo_night p) /\ mo_groups p = map snd (code_groups t) /\
  forall n c x g, assoc n t = Some (Leaf c x g) -> mo_unset p < c.
Proof.
  unfold modal_init. destruct (day_night_map t) as [dn|e]; [|discriminate]. cbn [bind]. destruct (leaf_codes t) as [|c0 r] eqn:EL; [discriminate|].
  intro E. apply Ok_inj in E. subst p. cbn [mo_night mo_groups mo_unset]. split; [reflexivity|]. split; [reflexivity|]. intros n c x g H.
  assert (Hin : In c (leaf_codes t)).
  { unfold leaf_codes. apply in_flat_map. exists (n, Leaf c x g). split; [apply assoc_In; exact H|left; reflexivity]. }
  rewrite EL in Hin. destruct (zminl_le c0 r) as [A B]. destruct Hin as [<-|Hin]; [lia|]. specialize (B c Hin). lia.
Qed.

Lemma modal_spec t p data u : proper_leaves t -> modal_init t = Ok p -> data <> [] -> Forall (leaf_code_of t) data -> Forall2 (counted_as t) data u ->
  exists r, is_mode u r /\
    (3 * Z.of_nat (length u) <= 10 * Z.of_nat (occurrences r u) -> modal_process p data = r) /\
    (10 * Z.of_nat (occurrences r u) < 3 * Z.of_nat (length u) ->
       exists u', Forall2 (regrouped t u) u u' /\ is_mode u' (modal_process p data)).
Proof.
  intros PL HI Hne HL HC. destruct (modal_init_inv t p HI) as [I1 [I2 I3]].
  assert (EU : unify (mo_night p) data = u).
  { rewrite unify_map. clear -PL I1 HC. induction HC as [|c k l l' H HF IH]; [reflexivity|]. cbn [map]. f_equal; [|exact IH].
    eapply counted_fun; [exact PL| |exact H]. apply unify1_counted; trivial. }
  assert (Hne' : u <> []) by (intros ->; inversion HC; subst; congruence).
  assert (HL' : forall z, In z u -> mo_unset p < z).
  { intros z Hz. destruct (Forall2_in_r _ _ _ HC z Hz) as [c [Hc [[n [tgt [g [x [g' [H1 _]]]]]]|[_ ->]]]]; [eapply I3; exact H1|].
    rewrite Forall_forall in HL. destruct (HL c Hc) as [n [x [g H]]]. eapply I3; exact H. }
  unfold modal_process. rewrite EU. destruct (aggregator_spec p u Hne') as [r [Hr Er]]. exists r. split; [exact Hr|].
  assert (Hru : mo_unset p < r) by (apply HL', Hr).
  assert (Hgen : forall c v, u = [c] -> v = c -> is_mode u v -> 10 * Z.of_nat (occurrences r u) < 3 * Z.of_nat (length u) -> False).
  { intros c v -> -> [_ _] Hlt. destruct Hr as [[<-|[]] _]. unfold occurrences in Hlt. cbn [count_occ length] in Hlt. destruct (Z.eq_dec c c); [|congruence]. cbn in Hlt. lia. }
  split.
  - intro Hsig. destruct u as [|a [|b u0]]; [congruence| |].
    + cbv zeta. destruct Hr as [[<-|[]] _]. reflexivity.
    + cbv zeta. rewrite Er. destruct (Z.ltb_spec (10 * Z.of_nat (occurrences r (a :: b :: u0))) (3 * Z.of_nat (length (a :: b :: u0)))); [lia|].
      destruct (Z.eqb_spec r (mo_unset p)); [lia|reflexivity].
  - intro Hsig. destruct u as [|a [|b u0]]; [congruence| |].
    + exfalso. apply (Hgen a a); trivial. destruct Hr as [[<-|[]] H]. split; [left; reflexivity|exact H].
    + cbv zeta. rewrite Er. destruct (Z.ltb_spec (10 * Z.of_nat (occurrences r (a :: b :: u0))) (3 * Z.of_nat (length (a :: b :: u0)))); [|lia].
      rewrite Z.eqb_refl. exists (fold_left group_one (mo_groups p) (a :: b :: u0)). rewrite I2. split; [apply grouped_spec; exact PL|].
      unfold group_codes. rewrite I2. assert (HF := grouped_spec t (a :: b :: u0) PL).
      apply mode_shift. intro En. rewrite En in HF. inversion HF.
Qed.
