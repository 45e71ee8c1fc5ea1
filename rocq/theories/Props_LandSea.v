(** C69: the choice of the method, the attributes, and the correction of coastal points. *)
From Coq Require Import Qround.
From Verif Require Import Base Model_Percentiles Model_Nbhood Proofs_Nbhood Proofs_Percentiles Proofs_Temporal Model_Regrid Spec_Regrid Proofs_Regrid.
Local Open Scope Q_scope.

(** C69: the modes are the seven names, and exactly those with a mask need a land mask. *)
Theorem C69_modes m has_mask : regrid_init m has_mask = Ok tt <->
  In m ["bilinear"; "nearest"; "nearest-2"; "bilinear-2"]%string \/ (has_mask = true /\ In m ["nearest-with-mask"; "nearest-with-mask-2"; "bilinear-with-mask-2"]%string).
Proof.
  assert (D : forall s, {m = s} + {m <> s}) by (intro; apply string_dec).
  assert (F : forall s, m <> s -> (s =? m)%string = false) by (intros s H; apply String.eqb_neq; congruence).
  unfold regrid_init, requires_landmask. cbn [find fst]. cbn [In].
  destruct (D "bilinear"%string) as [->|N1]; [cbn; split; [auto|destruct has_mask; reflexivity]|]. rewrite (F _ N1).
  destruct (D "nearest"%string) as [->|N2]; [cbn; split; [auto|destruct has_mask; reflexivity]|]. rewrite (F _ N2).
  destruct (D "nearest-with-mask"%string) as [->|N3]; [cbn; destruct has_mask; cbn; split; try discriminate; try reflexivity; [intros _; right; split; [reflexivity|now left]|intros [[X|[X|[X|[X|[]]]]]|[X _]]; discriminate]|]. rewrite (F _ N3).
  destruct (D "nearest-2"%string) as [->|N4]; [cbn; split; [auto 6|destruct has_mask; reflexivity]|]. rewrite (F _ N4).
  destruct (D "bilinear-2"%string) as [->|N5]; [cbn; split; [auto 7|destruct has_mask; reflexivity]|]. rewrite (F _ N5).
  destruct (D "nearest-with-mask-2"%string) as [->|N6]; [cbn; destruct has_mask; cbn; split; try discriminate; try reflexivity; [intros _; right; split; [reflexivity|right; now left]|intros [[X|[X|[X|[X|[]]]]]|[X _]]; discriminate]|]. rewrite (F _ N6).
  destruct (D "bilinear-with-mask-2"%string) as [->|N7]; [cbn; destruct has_mask; cbn; split; try discriminate; try reflexivity; [intros _; right; split; [reflexivity|right; right; now left]|intros [[X|[X|[X|[X|[]]]]]|[X _]]; discriminate]|]. rewrite (F _ N7).
  split; [discriminate|]. intros [[X|[X|[X|[X|[]]]]]|[_ [X|[X|[X|[]]]]]]; congruence.
Qed.
Lemma lookup_set k k' v (a : attr) : lookup_attr k' (set_attr k v a) = if (k =? k')%string then Some v else lookup_attr k' a.
Proof.
  unfold set_attr, lookup_attr. destruct (existsb (fun e => (fst e =? k)%string) a) eqn:E.
  - destruct (String.eqb_spec k k') as [->|N].
    + induction a as [|[x y] a IH]; [discriminate|]. cbn [map find fst existsb] in *. destruct (String.eqb_spec x k') as [->|Nx]; [cbn [fst]; rewrite String.eqb_refl; reflexivity|]. cbn [fst]. apply String.eqb_neq in Nx. rewrite Nx. cbn [orb] in E. now apply IH.
    + clear E. induction a as [|[x y] a IH]; [reflexivity|]. cbn [map find fst]. destruct (String.eqb_spec x k) as [->|Nx]; cbn [fst]; [apply String.eqb_neq in N; rewrite N; exact IH|]. destruct (x =? k')%string; [reflexivity|exact IH].
  - assert (G : find (fun e => (fst e =? k')%string) (a ++ [(k, v)]) = match find (fun e => (fst e =? k')%string) a with Some e => Some e | None => if (k =? k')%string then Some (k, v) else None end).
    { clear E. induction a as [|[x y] a IH]; [reflexivity|]. cbn [app find fst]. destruct (x =? k')%string; [reflexivity|exact IH]. }
    rewrite G. destruct (String.eqb_spec k k') as [->|N]; [|destruct (find (fun e => (fst e =? k')%string) a); reflexivity].
    destruct (find (fun e => (fst e =? k')%string) a) as [e|] eqn:F; [|reflexivity]. apply find_some in F as [F1 F2]. exfalso. assert (X : existsb (fun e => (fst e =? k')%string) a = true) by (apply existsb_exists; eauto). congruence.
Qed.
Lemma lookup_cons k x y (a : attr) : lookup_attr k ((x, y) :: a) = if (x =? k)%string then Some y else lookup_attr k a.
Proof. unfold lookup_attr. cbn [find fst]. destruct (x =? k)%string; reflexivity. Qed.
(** C69: after regridding the title is the one asked for or "unknown"; an attribute of the grid is that of the target if the source had it as well, and is absent otherwise; every other attribute is that of the source. *)
Theorem C69_attributes title a tgt k : lookup_attr k (regrid_attributes title a tgt) =
  if (k =? "title")%string then Some (match title with Some t => t | None => "unknown"%string end)
  else if existsb (String.eqb k) ["mosg__grid_type"; "mosg__grid_version"; "mosg__grid_domain"]%string
       then match lookup_attr k a with Some _ => lookup_attr k tgt | None => None end else lookup_attr k a.
Proof.
  unfold regrid_attributes. rewrite lookup_set. rewrite String.eqb_sym. destruct (k =? "title")%string eqn:Et; [reflexivity|]. fold mosg_attributes.
  induction a as [|[x y] a IH]; [cbn [flat_map]; unfold lookup_attr at 1 2 4; cbn [find option_map]; destruct (existsb (String.eqb k) mosg_attributes); reflexivity|]. cbn [flat_map fst]. rewrite lookup_cons.
  destruct (String.eqb_spec x k) as [->|N].
  - destruct (existsb (String.eqb k) mosg_attributes) eqn:Em; [|cbn [app]; rewrite lookup_cons, String.eqb_refl; reflexivity].
    destruct (lookup_attr k tgt) as [v|] eqn:El; [cbn [app]; rewrite lookup_cons, String.eqb_refl; reflexivity|]. cbn [app]. rewrite IH. destruct (lookup_attr k a); reflexivity.
  - apply String.eqb_neq in N. destruct (existsb (String.eqb x) mosg_attributes); [destruct (lookup_attr x tgt)|]; cbn [app]; rewrite ?lookup_cons, ?N; exact IH.
Qed.
(** ** Coastal points *)
Lemma has_type_iff h w input v : has_type h w input v = true <-> exists y x, (0 <= y < h /\ 0 <= x < w)%Z /\ input y x = v.
Proof.
  unfold has_type. rewrite existsb_exists. split.
  - intros ([y x] & I0 & E). apply eqb_prop in E. exists y, x. cbn [fst snd] in E. split; [|exact E]. apply indices_in in I0. lia.
  - intros (y & x & B & E). exists (y, x). split; [apply indices_in; lia|]. cbn [fst snd]. now apply eqb_true_iff.
Qed.
(** C69: a point changes only if its type differs from that of the source at it, the source has points of its type and one is in its vicinity; it then takes the value of the closest such point. Otherwise it keeps its value. *)
Theorem C69_adjust h w input output vicinity closest data y x : let own := output y x in
  let swapped := input y x <> own /\ (exists y' x', (0 <= y' < h /\ 0 <= x' < w)%Z /\ input y' x' = own) /\ vicinity own y x = true in
  (swapped -> adjust_land_sea h w input output vicinity closest data y x = data (fst (closest own y x)) (snd (closest own y x))) /\
  (~ swapped -> adjust_land_sea h w input output vicinity closest data y x = data y x).
Proof.
  intros own swapped. unfold adjust_land_sea, correct_type. fold own. split.
  - intros (Ni & Ex & Vi). apply has_type_iff in Ex. destruct own eqn:Eo.
    + rewrite Ex. fold own. rewrite Eo. cbn [Bool.eqb andb]. destruct (input y x); [congruence|]. cbn [Bool.eqb negb andb]. now rewrite Vi.
    + assert (X : (if has_type h w input true then fun y x : Z => if (Bool.eqb (output y x) true && negb (Bool.eqb (input y x) true) && vicinity true y x)%bool then data (fst (closest true y x)) (snd (closest true y x)) else (if has_type h w input false then fun y x : Z => if (Bool.eqb (output y x) false && negb (Bool.eqb (input y x) false) && vicinity false y x)%bool then data (fst (closest false y x)) (snd (closest false y x)) else data y x else data) y x else (if has_type h w input false then fun y x : Z => if (Bool.eqb (output y x) false && negb (Bool.eqb (input y x) false) && vicinity false y x)%bool then data (fst (closest false y x)) (snd (closest false y x)) else data y x else data)) y x = data (fst (closest false y x)) (snd (closest false y x))).
      { rewrite Ex. destruct (has_type h w input true); fold own; rewrite Eo; cbn [Bool.eqb andb]; destruct (input y x); try congruence; cbn [Bool.eqb negb andb]; now rewrite Vi. }
      exact X.
  - intro N.
    assert (No : forall v, output y x = v -> has_type h w input v = true -> (negb (Bool.eqb (input y x) v) && vicinity v y x)%bool = false).
    { intros v Ev Ht. destruct (negb (Bool.eqb (input y x) v) && vicinity v y x)%bool eqn:E; [exfalso|reflexivity]. apply andb_true_iff in E as [E1 E2]. apply negb_true_iff, eqb_false_iff in E1. apply N. unfold swapped, own. rewrite Ev. split; [exact E1|]. split; [now apply has_type_iff|exact E2]. }
    assert (Step : forall v (out : grid (option Q)), (if has_type h w input v then fun y x : Z => if (Bool.eqb (output y x) v && negb (Bool.eqb (input y x) v) && vicinity v y x)%bool then data (fst (closest v y x)) (snd (closest v y x)) else out y x else out) y x = out y x).
    { intros v out. destruct (has_type h w input v) eqn:Ht; [|reflexivity]. destruct (Bool.eqb (output y x) v) eqn:Eo; [|reflexivity]. apply eqb_prop in Eo. pose proof (No v Eo Ht) as X. cbn [andb]. now rewrite X. }
    rewrite Step. apply Step.
Qed.
(** C69: when the search for the closest point returns a source point of the type asked for (and the vicinity is not empty by mistake), every point of the result holds a value of the field at a point where the source has the type of the target, unless the target is too far from any. *)
Theorem C69_types h w input output vicinity closest data y x : (forall v y x, input (fst (closest v y x)) (snd (closest v y x)) = v) -> vicinity (output y x) y x = true -> (exists y' x', (0 <= y' < h /\ 0 <= x' < w)%Z /\ input y' x' = output y x) ->
  exists y' x', input y' x' = output y x /\ adjust_land_sea h w input output vicinity closest data y x = data y' x'.
Proof.
  intros Cl Vi Ex. destruct (C69_adjust h w input output vicinity closest data y x) as [A B]. destruct (Bool.bool_dec (input y x) (output y x)) as [E|N].
  - exists y, x. split; [exact E|]. apply B. intros (X & _). congruence.
  - exists (fst (closest (output y x) y x)), (snd (closest (output y x) y x)). split; [apply Cl|]. apply A. auto.
Qed.
(** ** Is one grid part of another *)
Lemma find_close_spec x l r : find_close x l = Some r -> exists l1 a r', l = l1 ++ a :: r' /\ r = a :: r' /\ isclose x a = true /\ forall b, In b l1 -> isclose x b = false.
Proof.
  revert r. induction l as [|a l IH]; intros r H; [discriminate|]. cbn [find_close] in H. destruct (isclose x a) eqn:E.
  - injection H as <-. exists [], a, l. split; [reflexivity|]. split; [reflexivity|]. split; [exact E|]. intros b [].
  - destruct (IH r H) as (l1 & b & r' & -> & -> & Eb & F). exists (a :: l1), b, r'. split; [reflexivity|]. split; [reflexivity|]. split; [exact Eb|]. intros c [<-|Hc]; [exact E|now apply F].
Qed.
Lemma find_close_none x l : find_close x l = None -> forall b, In b l -> isclose x b = false.
Proof. induction l as [|a l IH]; intros H b Hb; [destruct Hb|]. cbn [find_close] in H. destruct (isclose x a) eqn:E; [discriminate|]. destruct Hb as [<-|Hb]; [exact E|now apply IH]. Qed.
Lemma combine_close cutout part : length part = length cutout -> (forallb (fun p => isclose (fst p) (snd p)) (combine cutout part) = true <-> Forall2 (fun c p => Qabs (c - p) <= tolerance p) cutout part).
Proof.
  revert part. induction cutout as [|c cut IH]; intros [|p part] L; cbn [length] in L; try lia; [split; [constructor|reflexivity]|]. cbn [combine forallb fst snd]. rewrite andb_true_iff, isclose_iff, (IH part) by lia. split; [intros [A B]; now constructor|intro H; inversion H; auto].
Qed.
Lemma first_unique {A} (f : A -> bool) l1 a r l1' r' : l1 ++ a :: r = l1' ++ r' -> f a = true -> (forall b, In b l1 -> f b = false) -> (forall b, In b l1' -> f b = false) -> (exists p q, r' = p :: q /\ f p = true) -> r' = a :: r.
Proof.
  revert l1'. induction l1 as [|y l1 IH]; intros [|y' l1'] E Fa H H' (p & q & Er & Fp); cbn [app] in E.
  - congruence.
  - injection E as <- _. rewrite (H' a (or_introl eq_refl)) in Fa. discriminate.
  - rewrite Er in E. injection E as <- _. rewrite (H y (or_introl eq_refl)) in Fp. discriminate.
  - injection E as <- E. apply (IH l1' E Fa); [intros; apply H; now right|intros; apply H'; now right|eauto].
Qed.
(** Points further apart than twice the tolerance. *)
Definition apart (l : list Q) : Prop := forall l1 a l2 b l3, l = l1 ++ a :: l2 ++ b :: l3 -> forall c, ~ (Qabs (a - c) <= tolerance c /\ Qabs (b - c) <= tolerance c).
(** C69: for points that are not all within the tolerance of each other, a cut-out is found exactly if its points agree, up to the tolerance, with consecutive points of the grid; from the first grid point close to its first point on. *)
Theorem C69_cutout points cutout : cutout <> [] -> apart cutout ->
  exists b, axis_contains points cutout = Ok b /\
  (b = true <-> exists l1 part l2, points = l1 ++ part ++ l2 /\ (forall p, In p l1 -> ~ Qabs (hd 0 cutout - p) <= tolerance p) /\ Forall2 (fun c p => Qabs (c - p) <= tolerance p) cutout part).
Proof.
  intros Ne Ap. destruct cutout as [|x cut] eqn:Ec; [congruence|]. rewrite <- Ec in *. assert (Eh : hd 0 cutout = x) by now rewrite Ec. rewrite Eh. unfold axis_contains. rewrite Ec. rewrite <- Ec. destruct (find_close x points) as [rest|] eqn:F.
  - apply find_close_spec in F as (l1 & a & r' & -> & -> & Ea & Fa). set (part := firstn (length cutout) (a :: r')).
    assert (Close : forallb (fun p => isclose (fst p) (snd p)) (combine cutout part) = true -> length part = length cutout -> Forall2 (fun c p => Qabs (c - p) <= tolerance p) cutout part) by (intros; now apply combine_close).
    assert (Back : (exists l1' part' l2, l1 ++ a :: r' = l1' ++ part' ++ l2 /\ (forall p, In p l1' -> ~ Qabs (x - p) <= tolerance p) /\ Forall2 (fun c p => Qabs (c - p) <= tolerance p) cutout part') -> length part = length cutout /\ Forall2 (fun c p => Qabs (c - p) <= tolerance p) cutout part).
    { intros (l1' & part' & l2 & E & No & F2). pose proof (Forall2_len _ _ _ F2) as Lp. assert (Eq : part' ++ l2 = a :: r').
      { apply (first_unique (isclose x) l1 a r' l1' (part' ++ l2)); auto.
        - intros p Hp. destruct (isclose x p) eqn:Ip; [exfalso; apply (No p Hp); now apply isclose_iff|reflexivity].
        - rewrite Ec in F2. inversion F2 as [|? p ? ? Cp _]; subst. exists p. eexists. split; [reflexivity|]. now apply isclose_iff. }
      unfold part. rewrite <- Eq, Lp, firstn_app, Nat.sub_diag, firstn_all, firstn_O, app_nil_r. split; [reflexivity|exact F2]. }
    assert (Fwd : Forall2 (fun c p => Qabs (c - p) <= tolerance p) cutout part -> exists l1' part' l2, l1 ++ a :: r' = l1' ++ part' ++ l2 /\ (forall p, In p l1' -> ~ Qabs (x - p) <= tolerance p) /\ Forall2 (fun c p => Qabs (c - p) <= tolerance p) cutout part').
    { intro F2. exists l1, part, (skipn (length cutout) (a :: r')). split; [unfold part; now rewrite firstn_skipn|]. split; [|exact F2]. intros p Hp X. apply isclose_iff in X. rewrite (Fa p Hp) in X. discriminate. }
    destruct (length part =? length cutout)%nat eqn:El.
    + apply Nat.eqb_eq in El. eexists. split; [reflexivity|]. split; [intro T; apply Fwd; now apply Close|]. intro H. destruct (Back H) as [_ F2]. now apply combine_close.
    + apply Nat.eqb_neq in El. assert (Nb : forall b, (b = true -> False) -> (b = true <-> (exists l1' part' l2, l1 ++ a :: r' = l1' ++ part' ++ l2 /\ (forall p, In p l1' -> ~ Qabs (x - p) <= tolerance p) /\ Forall2 (fun c p => Qabs (c - p) <= tolerance p) cutout part'))) by (intros b Hb; split; [intro T; destruct (Hb T)|intro H; destruct (Back H); lia]).
      destruct part as [|p0 [|p1 pr]] eqn:Ep; [exists false; split; [reflexivity|]; apply Nb; discriminate| |exists false; split; [reflexivity|]; apply Nb; discriminate].
      eexists. split; [reflexivity|]. apply Nb. intro T. rewrite forallb_forall in T. destruct cut as [|x2 cut]; [subst cutout; cbn in El; lia|]. apply (Ap [] x [] x2 cut Ec p0). split; apply isclose_iff, T; rewrite Ec; cbn [In]; auto.
  - exists false. split; [reflexivity|]. split; [discriminate|]. intros (l1 & part & l2 & E & _ & F2). exfalso. rewrite Ec in F2. inversion F2 as [|? p ? ? Cp _]; subst. pose proof (find_close_none _ _ F p) as X. rewrite (proj2 (isclose_iff _ _) Cp) in X. discriminate X. apply in_or_app. right. now left.
Qed.
(** C69: a grid contains a cut-out if both axes do and their metadata agree; x is looked at first. *)
Theorem C69_contains mx gx cx my gy cy b : grid_contains mx gx cx my gy cy = Ok b -> cx <> [] -> cy <> [] -> (b = true <-> mx = true /\ my = true /\ axis_contains gx cx = Ok true /\ axis_contains gy cy = Ok true).
Proof.
  intros H Nx Ny. unfold grid_contains in H. destruct mx; cbn [negb] in H; [|apply Ok_inj in H; subst; split; [discriminate|intros (X & _); discriminate]].
  destruct (axis_contains gx cx) as [bx|]; [|discriminate]. cbn [bind] in H. destruct bx; cbn [negb] in H; [|apply Ok_inj in H; subst; split; [discriminate|intros (_ & _ & X & _); congruence]].
  destruct my; cbn [negb] in H; [|apply Ok_inj in H; subst; split; [discriminate|intros (_ & X & _); discriminate]]. split; [intros ->; auto|]. intros (_ & _ & _ & X). congruence.
Qed.
(** C69: a cut-out within a grid of 1 km, one that runs off its edge, and one that is off by half a cell; a point of sea in a strip of land next to sea. *)
Example C69_case : apart [2000; 3000] /\ axis_contains [0; 1000; 2000; 3000; 4000] [2000; 3000] = Ok true /\ axis_contains [0; 1000; 2000; 3000; 4000] [4000; 5000] = Ok false /\ axis_contains [0; 1000; 2000; 3000; 4000] [2500; 3500] = Ok false /\
  (let input := fun y x : Z => (x <? 2)%Z in let output := fun y x : Z => (x <? 1)%Z in let closest := fun (v : bool) y (x : Z) => if v then (y, Z.min x 1%Z) else (y, Z.max x 2%Z) in
   let data := fun y x : Z => Some (inject_Z (10 * y + x)) in map (adjust_land_sea 2%Z 4%Z input output (fun _ _ _ => true) closest data 1%Z) [0; 1; 2; 3]%Z = [Some 10; Some 12; Some 12; Some 13]).
Proof.
  split; [|vm_compute; auto].
  intros l1 a l2 b l3 E c [A B]. assert (a = 2000 /\ b = 3000) as [-> ->]. { destruct l1 as [|? l1]; [|destruct l1 as [|? l1]; [injection E as _ _ X; destruct l2; discriminate|destruct l1; discriminate]]. injection E as <- E. destruct l2 as [|? l2]; [injection E as <- _; auto|injection E as _ E; destruct l2; discriminate]. }
  unfold tolerance in *. apply Qabs_Qle_condition in A, B. destruct (Qlt_le_dec c 0) as [C|C]; [rewrite (Qabs_neg c) in * by lra|rewrite (Qabs_pos c) in * by lra]; lra.
Qed.

Print Assumptions C69_modes.
Print Assumptions C69_attributes.
Print Assumptions C69_adjust.
Print Assumptions C69_types.
Print Assumptions C69_cutout.
Print Assumptions C69_contains.
