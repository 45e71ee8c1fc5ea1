(** C121: forecasts, truths and the land-sea mask are told apart before training. *)
From Coq Require Import Ascii String Permutation.
From Verif Require Import Base Proofs_Nbhood Model_Attributes Model_Records Props_Naming Props_Records Model_EmosCommand.

Section split.
Variables (A M : Type) (merge : list (named_cube A) -> result M).
Notation tcube := (named_cube A).
Let run := split_forecasts_and_truth A M merge.
Let diagnostic := diagnostic A.
Let put := put A.
Let grouped := grouped A.

(** ** Groups *)
Lemma put_spec n c gs : NoDup (map fst gs) -> NoDup (map fst (put n c gs)) /\ (forall k, In k (map fst (put n c gs)) <-> k = n \/ In k (map fst gs)) /\
  (forall k l, In (k, l) (put n c gs) -> if String.eqb k n then exists l0, l = (l0 ++ [c])%list /\ (In (k, l0) gs \/ l0 = [] /\ ~ In k (map fst gs)) else In (k, l) gs).
Proof.
  induction gs as [|[m l] r IH]; intro N.
  - cbn. split; [repeat constructor; auto|]. split; [intuition|]. intros k l [E|[]]. injection E as <- <-. rewrite String.eqb_refl. exists []. auto.
  - cbn [map fst] in N. inversion_clear N as [|? ? N1 N2]. unfold put. cbn [Model_EmosCommand.put]. fold put. destruct (String.eqb_spec m n) as [->|D].
    + cbn [map fst]. split; [now constructor|]. split; [cbn; intuition|]. intros k q [E|I].
      * injection E as <- <-. rewrite String.eqb_refl. exists l. split; [reflexivity|]. left. now left.
      * destruct (String.eqb_spec k n) as [->|]; [|now right]. exfalso. apply N1. change n with (fst (n, q)). now apply in_map.
    + destruct (IH N2) as (I1 & I2 & I3). cbn [map fst]. split; [|split].
      * constructor; [|exact I1]. intro X. apply I2 in X as [X|X]; auto.
      * intro k. cbn [In]. rewrite I2. intuition.
      * intros k q [E|I].
        -- injection E as <- <-. destruct (String.eqb_spec m n); [contradiction|]. now left.
        -- specialize (I3 k q I). destruct (String.eqb_spec k n) as [->|]; [|now right]. destruct I3 as (l0 & -> & [X|[-> X]]); exists l0 || exists []; (split; [reflexivity|]); [left; now right|right]. split; [reflexivity|]. intros [Y|Y]; auto.
Qed.
Definition of_name (n : string) (cubes : list tcube) : list tcube := filter (fun c => String.eqb (diagnostic c) n) cubes.
Lemma grouped_spec cubes : NoDup (map fst (grouped cubes)) /\ (forall n, In n (map fst (grouped cubes)) <-> exists c, In c cubes /\ diagnostic c = n) /\ Forall (fun g => snd g = of_name (fst g) cubes) (grouped cubes).
Proof.
  induction cubes as [|c cubes IH] using rev_ind.
  - split; [constructor|]. split; [cbn; intro n; split; [intros []|intros (c & [] & _)]|constructor].
  - unfold grouped, Model_EmosCommand.grouped. rewrite fold_left_app. cbn [fold_left]. fold (Model_EmosCommand.grouped A cubes). fold grouped diagnostic put. destruct IH as (I1 & I2 & I3). destruct (put_spec (diagnostic c) c (grouped cubes) I1) as (P1 & P2 & P3). split; [exact P1|]. split.
    + intro n. rewrite P2, I2. split.
      * intros [->|(d & Id & E)]; [exists c; split; [apply in_or_app; right; now left|reflexivity]|exists d; split; [apply in_or_app; now left|exact E]].
      * intros (d & Id & E). apply in_app_or in Id as [Id|[<-|[]]]; [right; eauto|now left].
    + apply Forall_forall. intros [k l] I. specialize (P3 k l I). cbn [fst snd]. rewrite Forall_forall in I3. unfold of_name. rewrite filter_app. cbn [filter]. destruct (String.eqb_spec k (diagnostic c)) as [->|D].
      * rewrite String.eqb_refl. destruct P3 as (l0 & -> & [X|[-> X]]); [f_equal; exact (I3 _ X)|]. f_equal. symmetry. clear -X I2. assert (Y : forall d, In d cubes -> diagnostic d <> diagnostic c) by (intros d Id E; apply X, I2; eauto). clear X I2. induction cubes as [|x r IH]; [reflexivity|]. cbn [filter]. destruct (String.eqb_spec (diagnostic x) (diagnostic c)) as [E|_]; [exfalso; exact (Y x (or_introl eq_refl) E)|]. apply IH. intros d Id. apply Y. now right.
      * destruct (String.eqb_spec (diagnostic c) k); [congruence|]. rewrite app_nil_r. exact (I3 _ P3).
Qed.
(** The names, in the order of their first cubes. *)
Lemma grouped_is cubes : exists names, grouped cubes = map (fun n => (n, of_name n cubes)) names /\ NoDup names /\ forall n, In n names <-> exists c, In c cubes /\ diagnostic c = n.
Proof.
  destruct (grouped_spec cubes) as (N & I & F). exists (map fst (grouped cubes)). split; [|auto]. rewrite map_map. clear -F. induction F as [|[k l] r E F IH]; [reflexivity|]. cbn [map fst]. cbn [fst snd] in E. rewrite <- E. f_equal. exact IH.
Qed.

(** ** Truths and forecasts *)
(** The attribute that marks a truth: [key=value]. *)
Definition marks (s k v : string) : Prop := without "="%char k /\ without "="%char v /\ s = (k ++ String "="%char v)%string.
(** The cube has this value of the attribute (the first, if there were more of that name). *)
Definition marked (k v : string) (c : tcube) : Prop := exists before after, nc_attributes c = (before ++ (k, v) :: after)%list /\ forall x, ~ In (k, x) before.
Lemma marked_iff k v c : is_truth A k v c = true <-> marked k v c.
Proof.
  unfold is_truth, attribute, marked. induction (nc_attributes c) as [|[a b] l IH].
  - cbn. split; [discriminate|]. intros (x & y & E & _). destruct x; discriminate.
  - cbn [find fst]. destruct (String.eqb_spec a k) as [->|D].
    + cbn [option_map snd]. rewrite String.eqb_eq. split; [intros ->; exists [], l; split; [reflexivity|intros ? []]|]. intros (x & y & E & N). destruct x as [|p x]; cbn in E; injection E; [congruence|]. intros; subst p. exfalso. apply (N b). now left.
    + rewrite IH. split; intros (x & y & E & N).
      * exists ((a, b) :: x), y. rewrite E. split; [reflexivity|]. intros z [X|X]; [congruence|]. exact (N z X).
      * destruct x as [|p x]; cbn in E; injection E; [congruence|]. intros E' Ep. subst p. exists x, y. split; [exact E'|]. intros z X. apply (N z). now right.
Qed.
(** The two lists: truths and forecasts, in the order given. *)
Inductive sorted_out (k v : string) : list tcube -> list tcube -> list tcube -> Prop :=
| so_nil : sorted_out k v [] [] []
| so_truth c l ts fs : marked k v c -> sorted_out k v l ts fs -> sorted_out k v (c :: l) (c :: ts) fs
| so_forecast c l ts fs : ~ marked k v c -> sorted_out k v l ts fs -> sorted_out k v (c :: l) ts (c :: fs).
Lemma sorted_filters k v l ts fs : sorted_out k v l ts fs -> ts = filter (is_truth A k v) l /\ fs = filter (fun c => negb (is_truth A k v c)) l.
Proof.
  induction 1 as [|c l ts fs Mk S [-> ->]|c l ts fs Mk S [-> ->]]; [auto| |]; cbn [filter].
  - apply marked_iff in Mk. rewrite Mk. auto.
  - destruct (is_truth A k v c) eqn:E; [apply marked_iff in E; contradiction|]. auto.
Qed.
Lemma filters_sorted k v l : sorted_out k v l (filter (is_truth A k v) l) (filter (fun c => negb (is_truth A k v c)) l).
Proof.
  induction l as [|c l IH]; cbn [filter]; [constructor|]. destruct (is_truth A k v c) eqn:E; cbn [negb].
  - constructor; [apply marked_iff; exact E|exact IH].
  - constructor; [intro X; apply marked_iff in X; congruence|exact IH].
Qed.
Lemma two_roles s k v l ts fs : marks s k v -> sorted_out k v l ts fs -> truths_and_forecasts A M merge s l =
  match ts, fs with [], _ | _, [] => Err FileNotFound | _, _ => let* t := merge ts in let* f := merge fs in Ok (f, t) end.
Proof.
  intros (Nk & Nv & ->) So. apply sorted_filters in So as [-> ->]. unfold truths_and_forecasts. rewrite split_cons by exact Nk. rewrite split_plain by exact Nv. reflexivity.
Qed.
Lemma not_marks s l : (forall k v, ~ marks s k v) -> truths_and_forecasts A M merge s l = Err ValueError.
Proof.
  intro N. unfold truths_and_forecasts. assert (X : forall s l, split_on "="%char s = l -> Forall (without "="%char) l /\ s = String.concat (String "="%char "") l).
  { clear. induction s as [|a s IH]; intros l <-; cbn [split_on].
    - split; [constructor; [intros []|constructor]|reflexivity].
    - destruct (IH _ eq_refl) as [F E]. destruct (Ascii.eqb_spec a "="%char) as [->|D].
      + split; [constructor; [intros []|exact F]|]. pose proof (split_nonempty "="%char s) as Ne. destruct (split_on "="%char s) as [|w ws]; [contradiction|]. cbn [String.concat append]. rewrite E at 1. reflexivity.
      + pose proof (split_nonempty "="%char s) as Ne. destruct (split_on "="%char s) as [|w ws]; [contradiction|]. inversion_clear F. split; [constructor; [intros [X|X]; [congruence|contradiction]|assumption]|]. rewrite E. destruct ws; reflexivity. }
  destruct (X s _ eq_refl) as [F E]. destruct (split_on "="%char s) as [|k [|v [|? ?]]]; try reflexivity. exfalso. inversion_clear F. inversion_clear H0. apply (N k v). split; [assumption|]. split; [assumption|]. exact E.
Qed.
Lemma one_group n cubes : cubes <> [] -> (forall c, In c cubes -> diagnostic c = n) -> grouped cubes = [(n, cubes)].
Proof.
  intros Ne D. destruct (grouped_is cubes) as (names & E & Nd & I). assert (F : of_name n cubes = cubes). { unfold of_name. clear -D. induction cubes as [|c l IH]; [reflexivity|]. cbn [filter]. rewrite (D c (or_introl eq_refl)), String.eqb_refl. f_equal. apply IH. intros d Id. apply D. now right. }
  assert (names = [n]) as ->. { destruct cubes as [|c l]; [contradiction|]. assert (In n names) by (apply I; exists c; split; [now left|apply D; now left]). assert (O : forall m, In m names -> m = n) by (intros m Im; apply I in Im as (d & Id & <-); symmetry; symmetry; auto). destruct names as [|a [|b r]]; [contradiction|rewrite (O a); [reflexivity|now left]|]. exfalso. inversion_clear Nd. apply H0. left. rewrite (O a), (O b); auto; cbn; auto. }
  rewrite E. cbn [map]. rewrite F. reflexivity.
Qed.
Lemma two_groups n m cubes : n <> m -> (forall c, In c cubes -> diagnostic c = n \/ diagnostic c = m) -> of_name n cubes <> [] -> of_name m cubes <> [] ->
  grouped cubes = [(n, of_name n cubes); (m, of_name m cubes)] \/ grouped cubes = [(m, of_name m cubes); (n, of_name n cubes)].
Proof.
  intros D All Nn Nm. destruct (grouped_is cubes) as (names & E & Nd & I). assert (In' : forall x, of_name x cubes <> [] -> In x names). { intros x X. apply I. unfold of_name in X. destruct (filter _ cubes) as [|c l] eqn:F; [contradiction|]. assert (Ic : In c (c :: l)) by now left. rewrite <- F in Ic. apply filter_In in Ic as [Ic Ec]. apply String.eqb_eq in Ec. eauto. }
  assert (O : forall x, In x names <-> x = n \/ x = m). { intro x. split; [intro Ix; apply I in Ix as (c & Ic & <-); auto|]. intros [->| ->]; auto. }
  assert (P : Permutation names [n; m]). { apply NoDup_Permutation; [exact Nd|repeat constructor; cbn; intuition|]. intro x. rewrite O. cbn. intuition. }
  rewrite E. apply Permutation_sym, Permutation_length_2_inv in P as [->| ->]; cbn [map]; auto.
Qed.
(** What happens to the cubes of the diagnostic. *)
Definition training (s : string) (l : list tcube) (mask : option tcube) (r : result (M * M * option tcube)) : Prop :=
  exists k v ts fs, marks s k v /\ sorted_out k v l ts fs /\
    r = match ts, fs with [], _ | _, [] => Err FileNotFound | _, _ => let* t := merge ts in let* f := merge fs in Ok (f, t, mask) end.
Lemma training_of s k v l mask : marks s k v -> training s l mask (let* ft := truths_and_forecasts A M merge s l in Ok (ft, mask)).
Proof.
  intro Mk. exists k, v, (filter (is_truth A k v) l), (filter (fun c => negb (is_truth A k v c)) l). split; [exact Mk|]. pose proof (filters_sorted k v l) as S. split; [exact S|]. rewrite (two_roles _ _ _ _ _ _ Mk S). destruct (filter _ l), (filter _ l); try reflexivity. destruct (merge _); [|reflexivity]. cbn [bind]. destruct (merge _); reflexivity.
Qed.
(** C121: all of one diagnostic: no mask; the truths are those marked, the forecasts the others, in order; if there are none of either, IOError. *)
Theorem C121_one_name s k v n cubes : cubes <> [] -> (forall c, In c cubes -> diagnostic c = n) -> marks s k v -> training s cubes None (run s cubes).
Proof. intros Ne D Mk. unfold run, split_forecasts_and_truth. fold (grouped cubes). rewrite (one_group n cubes Ne D). apply (training_of s k v). exact Mk. Qed.
(** C121: one cube of another name, among two or more: this is the mask, wherever it is. *)
Theorem C121_mask s k v n before mask after : (forall c, In c (before ++ after) -> diagnostic c = n) -> diagnostic mask <> n -> (2 <= List.length (before ++ after))%nat -> marks s k v ->
  training s (before ++ after) (Some mask) (run s (before ++ mask :: after)).
Proof.
  intros D Dm L Mk. set (cubes := before ++ mask :: after). assert (En : of_name n cubes = before ++ after). { unfold of_name, cubes. rewrite filter_app. cbn [filter]. destruct (String.eqb_spec (diagnostic mask) n); [contradiction|]. rewrite <- filter_app. clear -D. induction (before ++ after) as [|c l IH]; [reflexivity|]. cbn [filter]. rewrite (D c (or_introl eq_refl)), String.eqb_refl. f_equal. apply IH. intros d Id. apply D. now right. }
  assert (Em : of_name (diagnostic mask) cubes = [mask]). { unfold of_name, cubes. rewrite filter_app. cbn [filter]. rewrite String.eqb_refl. assert (Z : forall l, (forall c, In c l -> diagnostic c = n) -> filter (fun c => String.eqb (diagnostic c) (diagnostic mask)) l = []). { clear -Dm. induction l as [|c l IH]; intro H; [reflexivity|]. cbn [filter]. rewrite (H c (or_introl eq_refl)). destruct (String.eqb_spec n (diagnostic mask)); [congruence|]. apply IH. intros d Id. apply H. now right. } rewrite !Z; [reflexivity| |]; intros c I; apply D, in_or_app; auto. }
  assert (All : forall c, In c cubes -> diagnostic c = n \/ diagnostic c = diagnostic mask). { intros c I. apply in_app_or in I as [I|[<-|I]]; [left; apply D, in_or_app; auto|auto|left; apply D, in_or_app; auto]. }
  assert (N1 : of_name n cubes <> []) by (rewrite En; intro X; rewrite X in L; cbn in L; lia). assert (N2 : of_name (diagnostic mask) cubes <> []) by (rewrite Em; discriminate).
  unfold run, split_forecasts_and_truth. fold (grouped cubes). destruct (two_groups n (diagnostic mask) cubes (not_eq_sym Dm) All N1 N2) as [->| ->]; rewrite En, Em.
  - cbn [List.length]. destruct (Nat.leb_spec (List.length (before ++ after)) 1); [lia|]. apply (training_of s k v). exact Mk.
  - cbn [List.length]. destruct (Nat.leb_spec 1 (List.length (before ++ after))); [|lia]. apply (training_of s k v). exact Mk.
Qed.
(** C121: no cubes, or more than two names: ValueError. Two names with two cubes or more of each: IOError. One of each: always refused. *)
Theorem C121_names_refused s cubes : cubes = [] \/ (exists a b c, In a cubes /\ In b cubes /\ In c cubes /\ diagnostic a <> diagnostic b /\ diagnostic a <> diagnostic c /\ diagnostic b <> diagnostic c) -> run s cubes = Err ValueError.
Proof.
  intros [->|(a & b & c & Ia & Ib & Ic & D1 & D2 & D3)]; [reflexivity|]. unfold run, split_forecasts_and_truth. fold (grouped cubes). destruct (grouped_is cubes) as (names & E & Nd & I). rewrite E.
  assert (L : (3 <= List.length names)%nat). { apply (@NoDup_incl_length _ [diagnostic a; diagnostic b; diagnostic c]); [repeat constructor; cbn; intuition congruence|]. intros x [<-|[<-|[<-|[]]]]; apply I; eauto. }
  destruct names as [|x [|y [|z r]]]; cbn in L; try lia. reflexivity.
Qed.
Theorem C121_two_of_each s n m cubes : n <> m -> (forall c, In c cubes -> diagnostic c = n \/ diagnostic c = m) -> (2 <= List.length (of_name n cubes))%nat -> (2 <= List.length (of_name m cubes))%nat -> run s cubes = Err FileNotFound.
Proof.
  intros D All L1 L2. assert (N1 : of_name n cubes <> []) by (intro X; rewrite X in L1; cbn in L1; lia). assert (N2 : of_name m cubes <> []) by (intro X; rewrite X in L2; cbn in L2; lia). unfold run, split_forecasts_and_truth. fold (grouped cubes).
  destruct (two_groups n m cubes D All N1 N2) as [->| ->]; destruct (_ <=? _)%nat; destruct (of_name n cubes) as [|? [|? ?]], (of_name m cubes) as [|? [|? ?]]; cbn in L1, L2; try lia; reflexivity.
Qed.
Theorem C121_one_of_each s a b : diagnostic a <> diagnostic b -> run s [a; b] = Err FileNotFound \/ run s [a; b] = Err ValueError.
Proof.
  intro D. unfold run, split_forecasts_and_truth, Model_EmosCommand.grouped. cbn [fold_left Model_EmosCommand.put]. fold (diagnostic a) (diagnostic b). destruct (String.eqb_spec (diagnostic a) (diagnostic b)); [contradiction|]. cbn [List.length Nat.leb].
  unfold truths_and_forecasts. destruct (split_on _ s) as [|k [|v [|? ?]]]; auto. cbn [filter]. destruct (is_truth A k v b); auto.
Qed.
(** C121: the text must have exactly one "=". *)
Theorem C121_attribute s cubes r : (forall k v, ~ marks s k v) -> run s cubes <> Ok r.
Proof.
  intros N. unfold run, split_forecasts_and_truth. destruct (Model_EmosCommand.grouped A cubes) as [|[a l1] [|[b l2] [|? ?]]]; try discriminate; [|destruct (_ <=? _)%nat]; [|destruct l1 as [|? [|? ?]]|destruct l2 as [|? [|? ?]]]; try discriminate; rewrite (not_marks _ _ N); discriminate.
Qed.
(** C121: if it succeeds every cube has exactly one role. *)
Theorem C121_each_once s cubes f t mask : run s cubes = Ok (f, t, mask) -> exists ts fs, merge ts = Ok t /\ merge fs = Ok f /\ ts <> [] /\ fs <> [] /\ Permutation cubes (ts ++ fs ++ match mask with Some c => [c] | None => [] end).
Proof.
  assert (S : forall k v l, Permutation l (filter (is_truth A k v) l ++ filter (fun c => negb (is_truth A k v c)) l)). { intros k v l. induction l as [|c l IH]; [constructor|]. cbn [filter]. destruct (is_truth A k v c); cbn [negb app]; [constructor; exact IH|]. etransitivity; [apply perm_skip; exact IH|]. apply Permutation_middle. }
  assert (T : forall l ft, truths_and_forecasts A M merge s l = Ok ft -> exists ts fs, merge ts = Ok (snd ft) /\ merge fs = Ok (fst ft) /\ ts <> [] /\ fs <> [] /\ Permutation l (ts ++ fs)).
  { intros l ft H. unfold truths_and_forecasts in H. destruct (split_on _ s) as [|k [|v [|? ?]]]; try discriminate. specialize (S k v l). destruct (filter _ l) as [|x ts]; [discriminate|]. destruct (filter _ l) as [|y fs]; [discriminate|]. destruct (merge (x :: ts)) as [mt|] eqn:E1; [|discriminate]. cbn [bind] in H. destruct (merge (y :: fs)) as [mf|] eqn:E2; [|discriminate]. cbn [bind] in H. injection H as <-. exists (x :: ts), (y :: fs). cbn [fst snd]. repeat split; auto; discriminate. }
  intro H. unfold run, split_forecasts_and_truth in H. fold (grouped cubes) in H. destruct (grouped_is cubes) as (names & E & Nd & I). rewrite E in H. destruct names as [|n [|m [|? ?]]]; cbn [map] in H; try discriminate.
  - destruct (truths_and_forecasts _ _ _ _ _) as [[f' t']|] eqn:Et; [|discriminate]. cbn [bind] in H. injection H as -> -> <-. destruct (T _ _ Et) as (ts & fs & A1 & A2 & A3 & A4 & P). exists ts, fs. cbn [fst snd] in *. rewrite app_nil_r. repeat split; auto. rewrite <- P. assert (of_name n cubes = cubes) as ->; [|reflexivity]. unfold of_name. assert (Z : forall c, In c cubes -> diagnostic c = n) by (intros c Ic; assert (X : In (diagnostic c) [n]) by (apply I; eauto); destruct X as [->|[]]; reflexivity). clear -Z. induction cubes as [|c l IH]; [reflexivity|]. cbn [filter]. rewrite (Z c (or_introl eq_refl)), String.eqb_refl. f_equal. apply IH. intros d Id. apply Z. now right.
  - assert (D : n <> m) by (inversion_clear Nd as [|? ? X _]; intros ->; apply X; now left).
    assert (P : Permutation cubes (of_name n cubes ++ of_name m cubes)). { assert (Z : forall c, In c cubes -> diagnostic c = n \/ diagnostic c = m) by (intros c Ic; assert (X : In (diagnostic c) [n; m]) by (apply I; eauto); destruct X as [->|[->|[]]]; auto). clear -Z D. unfold of_name. induction cubes as [|c l IH]; [constructor|]. cbn [filter]. specialize (IH (fun d Id => Z d (or_intror Id))). destruct (Z c (or_introl eq_refl)) as [E|E]; rewrite E, String.eqb_refl.
      - destruct (String.eqb_spec n m); [contradiction|]. cbn [app]. constructor. exact IH.
      - destruct (String.eqb_spec m n); [congruence|]. etransitivity; [apply perm_skip; exact IH|]. apply Permutation_middle. }
    destruct (_ <=? _)%nat.
    + destruct (of_name n cubes) as [|c [|? ?]]; try discriminate. destruct (truths_and_forecasts _ _ _ _ _) as [[f' t']|] eqn:Et; [|discriminate]. cbn [bind] in H. injection H as -> -> <-. destruct (T _ _ Et) as (ts & fs & A1 & A2 & A3 & A4 & P'). exists ts, fs. cbn [fst snd] in *. repeat split; auto. rewrite P, P'. cbn [app]. rewrite app_assoc. apply Permutation_cons_append.
    + destruct (of_name m cubes) as [|c [|? ?]]; try discriminate. destruct (truths_and_forecasts _ _ _ _ _) as [[f' t']|] eqn:Et; [|discriminate]. cbn [bind] in H. injection H as -> -> <-. destruct (T _ _ Et) as (ts & fs & A1 & A2 & A3 & A4 & P'). exists ts, fs. cbn [fst snd] in *. repeat split; auto. rewrite P, P'. rewrite app_assoc. reflexivity.
Qed.
(** C121: the order of the cubes does not matter, as far as it does not matter to the merging. *)
Theorem C121_order s cubes cubes' : (forall l l', Permutation l l' -> merge l = merge l') -> Permutation cubes cubes' -> run s cubes' = run s cubes.
Proof.
  intros Mo P. assert (Pf : forall (g : tcube -> bool) l l', Permutation l l' -> Permutation (filter g l) (filter g l')). { clear. intros g l l' P. induction P; cbn [filter]; [constructor|destruct (g x); auto|destruct (g x), (g y); auto; constructor|eauto using perm_trans]. }
  assert (T : forall l l', Permutation l l' -> truths_and_forecasts A M merge s l' = truths_and_forecasts A M merge s l).
  { intros l l' Pl. unfold truths_and_forecasts. destruct (split_on _ s) as [|k [|v [|? ?]]]; try reflexivity. pose proof (Pf (is_truth A k v) _ _ Pl) as P1. pose proof (Pf (fun c => negb (is_truth A k v c)) _ _ Pl) as P2. pose proof (Mo _ _ P1) as M1. pose proof (Mo _ _ P2) as M2. pose proof (Permutation_length P1) as L1. pose proof (Permutation_length P2) as L2.
    destruct (filter (is_truth A k v) l) as [|x ts], (filter (is_truth A k v) l') as [|x' ts']; try discriminate L1; [reflexivity|]. destruct (filter (fun c => negb _) l) as [|y fs], (filter (fun c => negb _) l') as [|y' fs']; try discriminate L2; [reflexivity|]. rewrite <- M1, <- M2. reflexivity. }
  unfold run, split_forecasts_and_truth. fold (grouped cubes) (grouped cubes'). destruct (grouped_is cubes) as (names & E & Nd & I). destruct (grouped_is cubes') as (names' & E' & Nd' & I'). rewrite E, E'.
  assert (Pn : Permutation names names'). { apply NoDup_Permutation; auto. intro x. rewrite I, I'. split; intros (c & Ic & Ec); exists c; (split; [|exact Ec]); [apply (Permutation_in _ P Ic)|apply (Permutation_in _ (Permutation_sym P) Ic)]. }
  assert (Po : forall n, Permutation (of_name n cubes) (of_name n cubes')) by (intro n; apply Pf, P).
  destruct names as [|n [|m [|? ?]]].
  - apply Permutation_nil in Pn. subst. reflexivity.
  - apply Permutation_length_1_inv in Pn. subst. cbn [map]. rewrite (T _ _ (Po n)). reflexivity.
  - assert (X : forall x y, let g n := of_name n cubes in let g' n := of_name n cubes' in
        (let (small, large) := if (List.length (g' x) <=? List.length (g' y))%nat then (g' x, g' y) else (g' y, g' x) in match small with [mask] => let* ft := truths_and_forecasts A M merge s large in Ok (ft, Some mask) | _ => Err FileNotFound end)
        = (let (small, large) := if (List.length (g x) <=? List.length (g y))%nat then (g x, g y) else (g y, g x) in match small with [mask] => let* ft := truths_and_forecasts A M merge s large in Ok (ft, Some mask) | _ => Err FileNotFound end)).
    { intros x y g g'. unfold g, g'. rewrite <- (Permutation_length (Po x)), <- (Permutation_length (Po y)). assert (Y : forall u w, match of_name u cubes' with [mask] => let* ft := truths_and_forecasts A M merge s (of_name w cubes') in Ok (ft, Some mask) | _ => Err FileNotFound end = match of_name u cubes with [mask] => let* ft := truths_and_forecasts A M merge s (of_name w cubes) in Ok (ft, Some mask) | _ => Err FileNotFound end).
      { intros u w. rewrite (T _ _ (Po w)). pose proof (Po u) as Pu. destruct (of_name u cubes) as [|c [|d l]].
        - apply Permutation_nil in Pu. rewrite Pu. reflexivity.
        - apply Permutation_length_1_inv in Pu. rewrite Pu. reflexivity.
        - apply Permutation_length in Pu. destruct (of_name u cubes') as [|? [|? ?]]; try discriminate Pu. reflexivity. }
      destruct (_ <=? _)%nat; apply Y. }
    apply Permutation_length_2_inv in Pn as [->| ->]; cbn [map]; [apply X|]. rewrite X. cbv zeta. clear X.
    destruct (Nat.leb_spec (List.length (of_name m cubes)) (List.length (of_name n cubes))), (Nat.leb_spec (List.length (of_name n cubes)) (List.length (of_name m cubes))); try reflexivity; try lia.
    (* as many of each *)
    assert (W : forall u w, List.length u = List.length w -> match u with [mask] => let* ft := truths_and_forecasts A M merge s w in Ok (ft, Some mask) | _ => Err FileNotFound end = match u with [_] => match split_on "="%char s with [_; _] => Err FileNotFound | _ => Err ValueError end | _ => @Err (M * M * option tcube) FileNotFound end).
    { intros u w L. destruct u as [|c [|d l]]; try reflexivity. destruct w as [|e [|? ?]]; try discriminate L. unfold truths_and_forecasts. destruct (split_on _ s) as [|k [|v [|? ?]]]; try reflexivity. cbn [filter]. destruct (is_truth A k v e); reflexivity. }
    rewrite (W (of_name m cubes)), (W (of_name n cubes)) by lia. destruct (of_name m cubes) as [|? [|? ?]], (of_name n cubes) as [|? [|? ?]]; try reflexivity; cbn in *; lia.
  - pose proof (Permutation_length Pn) as L. destruct names' as [|? [|? [|? ?]]]; try discriminate L. reflexivity.
Qed.
(** C121: probabilities of a diagnostic are of that diagnostic, with its vicinity; any other cube of its own name. *)
Theorem C121_diagnostic (c : tcube) : (forall x v t, Props_Naming.clean x -> is_vicinity v -> is_relation t \/ t = ""%string -> nc_name c = ("probability_of_" ++ x ++ v ++ t)%string -> diagnostic c = (x ++ v)%string) /\
  (String.prefix "probability_of_" (nc_name c) = false -> diagnostic c = nc_name c).
Proof.
  unfold diagnostic, Model_EmosCommand.diagnostic. split.
  - intros x v t C V T ->. destruct (C79_diagnostic x v t C V T) as [_ ->]. reflexivity.
  - intro H. destruct (C79_refused _ H) as [-> _]. reflexivity.
Qed.
End split.

(** A case: two forecasts, one of them probabilities, a truth and a mask, in two orders; merging counts the cubes. *)
Definition cube_of (n : string) (a : list (string * string)) : named_cube nat := {| nc_name := n; nc_attributes := a; nc_content := 0%nat |}.
Definition uk : named_cube nat := cube_of "rain" [("title", "A"); ("mosg__model_configuration", "uk_det")]%string.
Definition radar : named_cube nat := cube_of "rain" [("mosg__model_configuration", "nc_det")]%string.
Definition chance : named_cube nat := cube_of "probability_of_rain_above_threshold" [].
Definition sea : named_cube nat := cube_of "land_binary_mask" [].
Definition counted (l : list (named_cube nat)) : result nat := Ok (List.length l).
Example C121_case :
  split_forecasts_and_truth nat nat counted "mosg__model_configuration=nc_det" [uk; chance; sea; radar] = Ok (2, 1, Some sea)%nat /\
  split_forecasts_and_truth nat nat counted "mosg__model_configuration=nc_det" [sea; radar; uk; chance] = Ok (2, 1, Some sea)%nat /\
  split_forecasts_and_truth nat nat counted "mosg__model_configuration=nc_det" [uk; chance; radar] = Ok (2, 1, None)%nat /\
  split_forecasts_and_truth nat nat counted "mosg__model_configuration=uk=det" [uk; chance; radar] = Err ValueError /\
  split_forecasts_and_truth nat nat counted "mosg__model_configuration=nc_det" [uk; chance; sea; sea; radar] = Err FileNotFound /\
  split_forecasts_and_truth nat nat counted "mosg__model_configuration=x" [uk; chance; sea] = Err FileNotFound /\
  marks "mosg__model_configuration=nc_det" "mosg__model_configuration" "nc_det" /\ marked nat "mosg__model_configuration" "uk_det" uk /\
  sorted_out nat "mosg__model_configuration" "nc_det" [radar; chance] [radar] [chance].
Proof.
  do 6 (split; [vm_compute; reflexivity|]). split; [|split].
  - unfold marks, without. split; [cbn; intuition discriminate|]. split; [cbn; intuition discriminate|reflexivity].
  - exists [("title", "A")]%string, []. split; [reflexivity|]. intros x [X|[]]. discriminate.
  - apply so_truth; [exists [], []; split; [reflexivity|intros ? []]|]. apply so_forecast; [intros (b & a & E & _); destruct b; discriminate|constructor].
Qed.

Print Assumptions C121_one_name.
Print Assumptions C121_mask.
Print Assumptions C121_names_refused.
Print Assumptions C121_two_of_each.
Print Assumptions C121_one_of_each.
Print Assumptions C121_attribute.
Print Assumptions C121_each_once.
Print Assumptions C121_order.
Print Assumptions C121_diagnostic.
