From Verif Require Import Base Model_Threshold Spec_Tree Model_Tree Spec_TreeWalk Proofs_Tree Proofs_TreeRoutes Proofs_TreeMissing.
Local Open Scope string_scope.
Local Open Scope list_scope.
Local Open Scope Q_scope.

(** * Totality *)
Lemma walk_total env t (rk : string -> nat) s :
  (forall m d, reach t s m -> assoc m t = Some (Node d) -> node_ok env d /\ (rk (d_true d) < rk m)%nat /\ (rk (d_false d) < rk m)%nat) ->
  (forall m, reach t s m -> assoc m t <> None) ->
  (forall m d f, reach t s m -> assoc m t = Some (Node d) -> In f (d_fields d) -> exists x, eval_operand env (fst f) = Ok (Num x)) ->
  exists c, walk env t s c.
Proof.
  intros HOK HIN HNUM.
  assert (G : forall k n, (rk n < k)%nat -> reach t s n -> exists c, walk env t n c).
  { induction k as [|k IH]; intros n Hk HR; [lia|]. destruct (assoc n t) as [[c x g|d]|] eqn:E; [exists c; eapply walk_leaf; exact E| |exfalso; apply (HIN n HR E)].
    destruct (HOK n d HR E) as [Hd [R1 R2]]. destruct (field_values_ex env d Hd) as [fs Hfs].
    assert (HN : Forall (fun f => exists x, fst f = Num x) fs).
    { unfold field_values in Hfs. assert (HX : forall f, In f (d_fields d) -> exists x, eval_operand env (fst f) = Ok (Num x)) by (intros f Hf; eapply HNUM; eauto).
      clear -Hfs HX. induction Hfs as [|f v l fs [E1 E2] HF IH]; constructor.
      - destruct (HX f) as [x Ex]; [left; reflexivity|]. exists x. congruence.
      - apply IH. intros g Hg. apply HX. right. exact Hg. }
    destruct (yes_or_no (d_cmp d) (d_comb d) fs) as [HY|HY]; [apply Hd|exact HN| |].
    - destruct (IH (d_true d)) as [c Hc]; [lia|eapply reach_true; eauto|]. exists c. eapply walk_true; eauto.
    - destruct (IH (d_false d)) as [c Hc]; [lia|eapply reach_false; eauto|]. exists c. eapply walk_false; eauto. }
  apply (G (S (rk s)) s); [lia|constructor].
Qed.

(** * Expressions *)
Fixpoint pass (o : op) (x : Q) (l : list (op * Q)) : Q * list (op * Q) :=
  match l with
  | [] => (x, [])
  | (o', y) :: r => if op_eqb o o' then pass o (app_op o x y) r else let (y', r') := pass o y r in (x, (o', y') :: r')
  end.
Definition lift (l : list (op * Q)) : list (op * val) := map (fun oy => (fst oy, Num (snd oy))) l.
Lemma op_eqb_eq a b : op_eqb a b = true <-> a = b.
Proof. destruct a, b; simpl; split; congruence. Qed.

Lemma reduce_leftmost_pass o : forall l x, match reduce_leftmost o (Num x) (lift l) with
  | None => pass o x l = (x, l)
  | Some (v, l') => exists x1 l1, v = Num x1 /\ l' = lift l1 /\ length l = S (length l1) /\ pass o x l = pass o x1 l1
  end.
Proof.
  induction l as [|[o' y] l IH]; intro x; simpl; [reflexivity|]. destruct (op_eqb o o') eqn:E.
  - exists (app_op o x y), l. repeat split.
  - specialize (IH y). destruct (reduce_leftmost o (Num y) (lift l)) as [[v l']|].
    + destruct IH as [y1 [l1 [-> [-> [HL HP]]]]]. exists x, ((o', y1) :: l1). split; [reflexivity|]. split; [reflexivity|].
      split; [simpl; lia|]. simpl. rewrite E, HP. reflexivity.
    + rewrite IH. reflexivity.
Qed.
Lemma reduce_all_pass o : forall fuel l x, (length l <= fuel)%nat ->
  reduce_all fuel o (Num x) (lift l) = (Num (fst (pass o x l)), lift (snd (pass o x l))).
Proof.
  induction fuel as [|f IH]; intros l x HL.
  - destruct l; [reflexivity|simpl in HL; lia].
  - simpl. assert (H := reduce_leftmost_pass o l x). destruct (reduce_leftmost o (Num x) (lift l)) as [[v l']|].
    + destruct H as [x1 [l1 [-> [-> [HL1 HP]]]]]. rewrite IH by lia. rewrite HP. reflexivity.
    + rewrite H. reflexivity.
Qed.
Definition eval_q (x : Q) (l : list (op * Q)) : Q :=
  let '(x1, l1) := pass Div x l in let '(x2, l2) := pass Mul x1 l1 in let '(x3, l3) := pass Add x2 l2 in fst (pass Sub x3 l3).
Lemma eval_flat_q x l : eval_flat (Num x) (lift l) = Num (eval_q x l).
Proof.
  unfold eval_flat, eval_q. cbn [fold_left fst snd].
  rewrite reduce_all_pass by (unfold lift; rewrite map_length; lia). destruct (pass Div x l) as [x1 l1]. cbn [fst snd].
  rewrite reduce_all_pass by (unfold lift; rewrite map_length; lia). destruct (pass Mul x1 l1) as [x2 l2]. cbn [fst snd].
  rewrite reduce_all_pass by (unfold lift; rewrite map_length; lia). destruct (pass Add x2 l2) as [x3 l3]. cbn [fst snd].
  rewrite reduce_all_pass by (unfold lift; rewrite map_length; lia). reflexivity.
Qed.

Lemma conventional_comp l : forall acc acc' neg term term', acc == acc' -> term == term' -> conventional acc neg term l == conventional acc' neg term' l.
Proof.
  induction l as [|[o x] l IH]; intros acc acc' neg term term' E1 E2; cbn [conventional].
  - destruct neg; rewrite E1, E2; reflexivity.
  - destruct o; apply IH; try exact E1; try reflexivity; try (rewrite E2; reflexivity); destruct neg; rewrite E1, E2; reflexivity.
Qed.

Lemma div_pass l : forall acc neg p x, conventional acc neg (p * x) l == conventional acc neg (p * fst (pass Div x l)) (snd (pass Div x l)).
Proof.
  induction l as [|[o y] l IH]; intros acc neg p x; cbn [pass op_eqb]; [reflexivity|].
  destruct o; cbn [op_eqb]; try (destruct (pass Div y l) as [y' r'] eqn:EP; cbn [fst snd conventional]).
  - specialize (IH (if neg then acc - p * x else acc + p * x) false 1 y). rewrite EP in IH. cbn [fst snd] in IH.
    rewrite (conventional_comp l _ (if neg then acc - p * x else acc + p * x) false y (1 * y)); [|reflexivity|ring].
    rewrite IH. apply conventional_comp; [reflexivity|ring].
  - specialize (IH (if neg then acc - p * x else acc + p * x) true 1 y). rewrite EP in IH. cbn [fst snd] in IH.
    rewrite (conventional_comp l _ (if neg then acc - p * x else acc + p * x) true y (1 * y)); [|reflexivity|ring].
    rewrite IH. apply conventional_comp; [reflexivity|ring].
  - specialize (IH acc neg (p * x) y). rewrite EP in IH. cbn [fst snd] in IH. exact IH.
  - cbn [app_op conventional]. rewrite <- IH. apply conventional_comp; [reflexivity|]. unfold Qdiv. ring.
Qed.
Lemma mul_pass l : (forall o y, In (o, y) l -> o <> Div) -> forall acc neg x,
  conventional acc neg x l == conventional acc neg (fst (pass Mul x l)) (snd (pass Mul x l)).
Proof.
  induction l as [|[o y] l IH]; intros HD acc neg x; cbn [pass op_eqb]; [reflexivity|].
  assert (HD' : forall o y, In (o, y) l -> o <> Div) by (intros o' y' H; eapply HD; right; exact H).
  destruct o; cbn [op_eqb]; try (destruct (pass Mul y l) as [y' r'] eqn:EP; cbn [fst snd conventional]).
  - specialize (IH HD' (if neg then acc - x else acc + x) false y). rewrite EP in IH. exact IH.
  - specialize (IH HD' (if neg then acc - x else acc + x) true y). rewrite EP in IH. exact IH.
  - cbn [app_op conventional]. apply IH; exact HD'.
  - exfalso. apply (HD Div y); [left; reflexivity|reflexivity].
Qed.
(** Operators left after a pass: those of the list without the one applied. *)
Lemma pass_ops o l : forall x, map fst (snd (pass o x l)) = filter (fun p => negb (op_eqb o p)) (map fst l).
Proof.
  induction l as [|[o' y] l IH]; intro x; simpl; [reflexivity|]. destruct (op_eqb o o') eqn:E; simpl; [apply IH|].
  specialize (IH y). destruct (pass o y l) as [y' r'] eqn:EP. simpl in *. rewrite IH. reflexivity.
Qed.
Fixpoint naas (seen : bool) (l : list op) : Prop :=
  match l with [] => True | Add :: r => seen = false /\ naas seen r | Sub :: r => naas true r | _ :: r => naas seen r end.
Lemma naas_ops b l : no_add_after_sub b l <-> naas b (map fst l).
Proof. revert b; induction l as [|[[] y] l IH]; intro b; simpl; try tauto; rewrite ?IH; tauto. Qed.
Lemma naas_filter p (Hs : p Sub = true) (l : list op) : forall b, naas b l -> naas b (filter p l).
Proof.
  induction l as [|o l IH]; intros b H; simpl; [trivial|]. destruct o; simpl in H.
  - destruct H as [H1 H2]. destruct (p Add); simpl; [split; [exact H1|apply IH; exact H2]|apply IH; exact H2].
  - rewrite Hs. simpl. apply IH. exact H.
  - destruct (p Mul); simpl; apply IH; exact H.
  - destruct (p Div); simpl; apply IH; exact H.
Qed.
Lemma sub_only l : (forall o y, In (o, y) l -> o = Sub) -> forall acc neg x,
  conventional acc neg x l == conventional acc neg x [] - qsum (map snd l).
Proof.
  induction l as [|[o y] l IH]; intros H acc neg x; [simpl; ring|].
  assert (o = Sub) by (apply (H o y); left; reflexivity). subst o. cbn [conventional map snd qsum].
  rewrite IH by (intros o' y' H'; apply (H o' y'); right; exact H'). cbn [conventional]. ring.
Qed.
Lemma pass_sub_only l : (forall o y, In (o, y) l -> o = Sub) -> forall x, fst (pass Sub x l) == x - qsum (map snd l).
Proof.
  induction l as [|[o y] l IH]; intros H x; [simpl; ring|].
  assert (o = Sub) by (apply (H o y); left; reflexivity). subst o. cbn [pass op_eqb app_op map snd qsum].
  rewrite IH by (intros o' y' H'; apply (H o' y'); right; exact H'). ring.
Qed.
Lemma pass_add_subs l : (forall o y, In (o, y) l -> o = Sub) -> forall x, pass Add x l = (x, l).
Proof.
  induction l as [|[o y] l IH]; intros H x; [reflexivity|].
  assert (o = Sub) by (apply (H o y); left; reflexivity). subst o. cbn [pass op_eqb].
  rewrite IH by (intros o' y' H'; apply (H o' y'); right; exact H'). reflexivity.
Qed.
Lemma addsub l : (forall o y, In (o, y) l -> o = Add \/ o = Sub) -> no_add_after_sub false l -> forall x,
  fst (pass Sub (fst (pass Add x l)) (snd (pass Add x l))) == conventional 0 false x l.
Proof.
  intro HO. induction l as [|[o y] l IH]; intros HN x; [simpl; ring|].
  assert (HO' : forall o y, In (o, y) l -> o = Add \/ o = Sub) by (intros o' y' H; apply (HO o' y'); right; exact H).
  destruct (HO o y (or_introl eq_refl)) as [-> | ->].
  - cbn [pass op_eqb app_op]. rewrite IH; [|exact HO'|apply HN]. cbn [conventional].
    assert (G : forall l a b z w, (forall o y, In (o, y) l -> o = Add \/ o = Sub) -> a + z == b + w -> conventional a false z l == conventional b false w l).
    { clear. intros l a b z w H E. destruct l as [|[o v] l]; cbn [conventional]; [exact E|].
      destruct (H o v (or_introl eq_refl)) as [-> | ->]; apply conventional_comp; try reflexivity; exact E. }
    apply G; [exact HO'|ring].
  - assert (HS : forall o y, In (o, y) l -> o = Sub).
    { cbn [no_add_after_sub] in HN. clear -HN HO'. induction l as [|[o z] l IH]; intros o' y' H; [destruct H|].
      assert (H0 := HO' o z (or_introl eq_refl)). destruct H0 as [-> | ->]; cbn [no_add_after_sub] in HN; [destruct HN; discriminate|].
      destruct H as [E|H]; [injection E as <- <-; reflexivity|]. first [apply (IH HN (fun o2 y2 H2 => HO' o2 y2 (or_intror H2)) o' y' H)|apply (IH (fun o2 y2 H2 => HO' o2 y2 (or_intror H2)) HN o' y' H)]. }
    assert (HS2 : forall o' y', In (o', y') ((Sub, y) :: l) -> o' = Sub) by (intros o' y' [E|H]; [injection E as <- <-; reflexivity|apply (HS o' y' H)]).
    rewrite (pass_add_subs ((Sub, y) :: l) HS2). cbn [fst snd]. rewrite (pass_sub_only _ HS2).
    rewrite (sub_only _ HS2). cbn [conventional]. ring.
Qed.

Lemma eval_flat_conventional x l : no_add_after_sub false l -> exists q, eval_flat (Num x) (lift l) = Num q /\ q == conventional 0 false x l.
Proof.
  intro HN. rewrite eval_flat_q. eexists. split; [reflexivity|]. unfold eval_q.
  assert (E1 := div_pass l 0 false 1 x). assert (O1 := pass_ops Div l x). destruct (pass Div x l) as [x1 l1]. cbn [fst snd] in *.
  assert (D1 : forall o y, In (o, y) l1 -> o <> Div).
  { intros o y H ->. assert (HI : In Div (map fst l1)) by (change Div with (fst (Div, y)); apply in_map; exact H).
    rewrite O1 in HI. apply filter_In in HI. destruct HI; discriminate. }
  assert (E2 := mul_pass l1 D1 0 false x1). assert (O2 := pass_ops Mul l1 x1). destruct (pass Mul x1 l1) as [x2 l2]. cbn [fst snd] in *.
  assert (HO : forall o y, In (o, y) l2 -> o = Add \/ o = Sub).
  { intros o y H. assert (HI : In o (map fst l2)) by (change o with (fst (o, y)); apply in_map; exact H).
    rewrite O2 in HI. apply filter_In in HI. destruct HI as [HI HM]. rewrite O1 in HI. apply filter_In in HI. destruct HI as [_ HD].
    destruct o; simpl in *; try discriminate; tauto. }
  assert (HN2 : no_add_after_sub false l2).
  { apply naas_ops. rewrite O2, O1. apply naas_filter; [reflexivity|]. apply naas_filter; [reflexivity|]. apply naas_ops. exact HN. }
  assert (E3 := addsub l2 HO HN2 x2). destruct (pass Add x2 l2) as [x3 l3]. cbn [fst snd] in *. rewrite E3.
  transitivity (conventional 0 false (1 * x) l); [|apply conventional_comp; [reflexivity|ring]].
  rewrite E1. rewrite <- E2. apply conventional_comp; [reflexivity|ring].
Qed.

(** * Day and night *)
Fixpoint lookz (k : Z) (m : list (Z * Z)) : option Z := match m with [] => None | (k', v) :: r => if Z.eqb k k' then Some v else lookz k r end.
Lemma dict_set_look k v m c : lookz c (dict_set k v m) = if Z.eqb c k then Some v else lookz c m.
Proof.
  induction m as [|[k' v'] m IH]; simpl; [destruct (Z.eqb c k); reflexivity|]. destruct (Z.eqb_spec k k') as [->|Hk]; simpl.
  - destruct (Z.eqb_spec c k'); reflexivity.
  - destruct (Z.eqb_spec c k') as [->|]; [|exact IH]. destruct (Z.eqb_spec k' k); [congruence|reflexivity].
Qed.
Lemma dict_set_keys k v m : NoDup (map fst m) -> NoDup (map fst (dict_set k v m)) /\ (forall x, In x (map fst (dict_set k v m)) -> x = k \/ In x (map fst m)).
Proof.
  induction m as [|[k' v'] m IH]; simpl; intro HN.
  - split; [constructor; [intros []|constructor]|]. intros x [<-|[]]. left; reflexivity.
  - inversion HN as [|? ? H1 H2]; subst. destruct (Z.eqb_spec k k') as [->|Hk]; simpl.
    + split; [exact HN|]. intros x [<-|H]; [left; reflexivity|right; right; exact H].
    + destruct (IH H2) as [I1 I2]. split.
      * constructor; [|exact I1]. intro H. destruct (I2 _ H) as [->|H']; [congruence|contradiction].
      * intros x [<-|H]; [right; left; reflexivity|]. destruct (I2 _ H); [left; trivial|right; right; trivial].
Qed.
Lemma lookz_in k m v : lookz k m = Some v -> In (k, v) m.
Proof. induction m as [|[k' v'] m IH]; simpl; [discriminate|]. destruct (Z.eqb_spec k k') as [->|]; intro H; [injection H as <-; left; reflexivity|right; apply IH; exact H]. Qed.
Lemma lookz_key k m v : lookz k m = Some v -> In k (map fst m).
Proof. intro H. apply lookz_in in H. change k with (fst (k, v)). apply in_map. exact H. Qed.
Lemma in_lookz k v m : NoDup (map fst m) -> In (k, v) m -> lookz k m = Some v.
Proof.
  induction m as [|[k' v'] m IH]; simpl; intros HN H; [destruct H|]. inversion HN as [|? ? H1 H2]; subst. destruct H as [E|H].
  - injection E as -> ->. rewrite Z.eqb_refl. reflexivity.
  - destruct (Z.eqb_spec k k') as [->|]; [|apply IH; trivial]. exfalso. apply H1. change k' with (fst (k', v)). apply in_map. exact H.
Qed.
Lemma key_lookz k m : In k (map fst m) -> exists v, lookz k m = Some v.
Proof.
  induction m as [|[k' v'] m IH]; simpl; [intros []|]. intros H. destruct (Z.eqb_spec k k'); [eexists; reflexivity|]. apply IH. destruct H; [congruence|trivial].
Qed.

Lemma update_night m c : NoDup (map fst m) -> (forall k v, In (k, v) m -> ~ In v (map fst m)) ->
  update_daynight m false (Some c) = Some (match lookz c m with Some v => v | None => c end).
Proof.
  unfold update_daynight. revert c. induction m as [|[k v] m IH]; intros c HN HV; [reflexivity|]. inversion HN as [|? ? H1 H2]; subst.
  assert (HV' : forall k0 v0, In (k0, v0) m -> ~ In v0 (map fst m)).
  { intros k0 v0 H H'. apply (HV k0 v0); [right; exact H|right; exact H']. }
  cbn [fold_left fst snd lookz]. destruct (Z.eqb_spec c k) as [->|].
  - rewrite (IH v H2 HV'). destruct (lookz v m) as [w|] eqn:E; [|reflexivity]. exfalso. apply (HV k v); [left; reflexivity|]. right. eapply lookz_key; exact E.
  - apply IH; trivial.
Qed.
Lemma update_day m c : update_daynight m true c = c.
Proof.
  unfold update_daynight. revert c. induction m as [|[k v] m IH]; intro c; [reflexivity|]. cbn [fold_left fst]. destruct c as [c|]; [|apply IH].
  destruct (Z.eqb c k); apply IH.
Qed.
Lemma update_none m b : update_daynight m b None = None.
Proof. unfold update_daynight. induction m as [|kv m IH]; [reflexivity|]. exact IH. Qed.

Lemma map_fold (t0 : tree) l : (forall n c tgt g, In (n, Leaf c (Some tgt) g) l -> exists c', leaf_code t0 tgt = Ok c') ->
  forall m, NoDup (map fst m) ->
  exists m', foldM (fun d (kq : string * query) => match snd kq with
                   | Leaf c (Some n) _ => let* v := leaf_code t0 n in Ok (dict_set c v d)
                   | _ => Ok d
                   end) m l = Ok m' /\ NoDup (map fst m') /\
    (forall c v, lookz c m' = Some v -> lookz c m = Some v \/ exists n tgt g, In (n, Leaf c (Some tgt) g) l /\ leaf_code t0 tgt = Ok v) /\
    (forall c, In c (map fst m) -> In c (map fst m')) /\
    (forall n c tgt g, In (n, Leaf c (Some tgt) g) l -> In c (map fst m')).
Proof.
  assert (HK : forall c k v m, In c (map fst m) \/ c = k -> In c (map fst (dict_set k v m))).
  { intros c k v m H. destruct (key_lookz c (dict_set k v m)) as [w Hw]; [|eapply lookz_key; exact Hw].
    assert (exists w, lookz c (dict_set k v m) = Some w) as [w Hw]; [|eapply lookz_key; exact Hw]. rewrite dict_set_look.
    destruct (Z.eqb_spec c k); [eexists; reflexivity|]. destruct H as [H|H]; [|congruence]. apply key_lookz. exact H. }
  induction l as [|[n q] l IH]; intros HT m HN; cbn [foldM snd].
  - exists m. split; [reflexivity|]. split; [exact HN|]. split; [intros c v H; left; exact H|]. split; [trivial|]. intros n c tgt g [].
  - assert (HT' : forall n c tgt g, In (n, Leaf c (Some tgt) g) l -> exists c', leaf_code t0 tgt = Ok c') by (intros n' c tgt g H; apply (HT n' c tgt g); right; exact H).
    assert (HSKIP : (forall c tgt g, q <> Leaf c (Some tgt) g) -> exists m', foldM (fun d (kq : string * query) => match snd kq with
                   | Leaf c (Some n) _ => let* v := leaf_code t0 n in Ok (dict_set c v d) | _ => Ok d end) m l = Ok m' /\ NoDup (map fst m') /\
      (forall c v, lookz c m' = Some v -> lookz c m = Some v \/ exists n' tgt g, In (n', Leaf c (Some tgt) g) ((n, q) :: l) /\ leaf_code t0 tgt = Ok v) /\
      (forall c, In c (map fst m) -> In c (map fst m')) /\ (forall n' c tgt g, In (n', Leaf c (Some tgt) g) ((n, q) :: l) -> In c (map fst m'))).
    { intro Hq. destruct (IH HT' m HN) as [m' [E [N [L [K1 K2]]]]]. exists m'. split; [exact E|]. split; [exact N|]. split.
      - intros c v H. destruct (L c v H) as [H'|[n' [tgt [g [H1 H2]]]]]; [left; exact H'|right; exists n', tgt, g; split; [right; exact H1|exact H2]].
      - split; [exact K1|]. intros n' c tgt g [E'|H]; [injection E' as -> ->; exfalso; eapply Hq; reflexivity|eapply K2; exact H]. }
    destruct q as [c [tgt|] g|d]; [| |]; try (cbn [bind]; apply HSKIP; intros; discriminate).
    destruct (HT n c tgt g (or_introl eq_refl)) as [c' Ec']. rewrite Ec'. cbn [bind].
    destruct (dict_set_keys c c' m HN) as [N1 _].
    destruct (IH HT' (dict_set c c' m) N1) as [m' [E [N [L [K1 K2]]]]]. exists m'. split; [exact E|]. split; [exact N|]. split.
    + intros x v H. destruct (L x v H) as [H'|[n' [tgt' [g' [H1 H2]]]]].
      * rewrite dict_set_look in H'. destruct (Z.eqb_spec x c) as [->|]; [|left; exact H']. injection H' as <-.
        right. exists n, tgt, g. split; [left; reflexivity|exact Ec'].
      * right. exists n', tgt', g'. split; [right; exact H1|exact H2].
    + split; [intros x H; apply K1, HK; left; exact H|]. intros n' x tgt' g' [E'|H]; [injection E' as <- <- <- <-; apply K1, HK; right; reflexivity|eapply K2; exact H].
Qed.

Lemma day_night_spec t : NoDup (map fst t) ->
  (forall n n' c x g x' g', assoc n t = Some (Leaf c x g) -> assoc n' t = Some (Leaf c x' g') -> n = n') ->
  (forall n c tgt g, assoc n t = Some (Leaf c (Some tgt) g) -> exists c' g', assoc tgt t = Some (Leaf c' None g')) ->
  exists m, day_night_map t = Ok m /\
    (forall c, update_daynight m true c = c) /\ (forall b, update_daynight m b None = None) /\
    (forall n c tgt g c' g', assoc n t = Some (Leaf c (Some tgt) g) -> assoc tgt t = Some (Leaf c' None g') -> update_daynight m false (Some c) = Some c') /\
    (forall n c g, assoc n t = Some (Leaf c None g) -> update_daynight m false (Some c) = Some c).
Proof.
  intros HN HU HT. unfold day_night_map.
  destruct (map_fold t t) with (m := @nil (Z * Z)) as [m [E [N [L [_ K]]]]].
  { intros n c tgt g H. destruct (HT n c tgt g (assoc_nodup _ _ _ HN H)) as [c' [g' E]]. exists c'. unfold leaf_code. rewrite E. reflexivity. }
  { constructor. }
  exists m. split; [exact E|]. split; [intro c; apply update_day|]. split; [intro b; apply update_none|].
  assert (HV : forall k v, In (k, v) m -> ~ In v (map fst m)).
  { intros k v H H'. apply (in_lookz _ _ _ N) in H. destruct (L k v H) as [X|[n [tgt [g [H1 H2]]]]]; [discriminate|].
    destruct (key_lookz v m H') as [w Hw]. destruct (L v w Hw) as [X|[n2 [tgt2 [g2 [H3 H4]]]]]; [discriminate|].
    destruct (HT n k tgt g (assoc_nodup _ _ _ HN H1)) as [c' [g' Et]]. unfold leaf_code in H2. rewrite Et in H2. injection H2 as ->.
    assert (E2 := assoc_nodup _ _ _ HN H3). assert (tgt = n2) by (eapply HU; eauto). subst n2. congruence. }
  split.
  - intros n c tgt g c' g' H1 H2. rewrite update_night by trivial.
    destruct (key_lookz c m) as [v Hv]; [eapply K; apply assoc_In; exact H1|]. rewrite Hv.
    destruct (L c v Hv) as [X|[n2 [tgt2 [g2 [H3 H4]]]]]; [discriminate|]. assert (E2 := assoc_nodup _ _ _ HN H3).
    assert (n = n2) by (eapply HU; eauto). subst n2. rewrite H1 in E2. injection E2 as <- <-. unfold leaf_code in H4. rewrite H2 in H4. injection H4 as <-. reflexivity.
  - intros n c g H1. rewrite update_night by trivial. destruct (lookz c m) as [v|] eqn:Hv; [|reflexivity].
    destruct (L c v Hv) as [X|[n2 [tgt2 [g2 [H3 H4]]]]]; [discriminate|]. assert (E2 := assoc_nodup _ _ _ HN H3).
    assert (n = n2) by (eapply HU; eauto). subst n2. congruence.
Qed.
