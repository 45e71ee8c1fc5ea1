(** C108: the record of the runs in a blend. *)
From Coq Require Import Ascii String Decimal DecimalString DecimalNat.
From Verif Require Import Base Model_Percentiles Proofs_ProbPerc Props_Rainforests Model_Records.
Local Open Scope string_scope.

(** ** Text *)
Definition without (c : ascii) (s : string) : Prop := ~ In c (list_ascii_of_string s).
Lemma split_nonempty c s : split_on c s <> [].
Proof. destruct s as [|a s]; cbn; [discriminate|]. destruct (Ascii.eqb a c); [discriminate|]. destruct (split_on c s); discriminate. Qed.
Lemma split_plain c s : without c s -> split_on c s = [s].
Proof. unfold without. induction s as [|a s IH]; cbn; intro N; [reflexivity|]. destruct (Ascii.eqb_spec a c) as [->|_]; [elim N; now left|]. rewrite IH by (intro; apply N; now right). reflexivity. Qed.
Lemma split_cons c s t : without c s -> split_on c (s ++ String c t) = s :: split_on c t.
Proof. unfold without. induction s as [|a s IH]; cbn; intro N; [now rewrite Ascii.eqb_refl|]. destruct (Ascii.eqb_spec a c) as [->|_]; [elim N; now left|]. rewrite IH by (intro; apply N; now right). reflexivity. Qed.
Lemma split_concat c l : l <> [] -> Forall (without c) l -> split_on c (String.concat (String c "") l) = l.
Proof.
  intros N F. induction l as [|a l IH]; [contradiction|]. inversion_clear F. destruct l as [|b l]; [now apply split_plain|]. change (String.concat (String c "") (a :: b :: l)) with (a ++ String c (String.concat (String c "") (b :: l))). rewrite split_cons by assumption. f_equal. apply IH; [discriminate|assumption].
Qed.
Lemma rsplit_none s : without ":"%char s -> rsplit1 s = None.
Proof. unfold without. induction s as [|a s IH]; cbn; intro N; [reflexivity|]. rewrite IH by (intro; apply N; now right). destruct (Ascii.eqb_spec a ":"%char) as [->|_]; [elim N; now left|reflexivity]. Qed.
Lemma rsplit_last a b : without ":"%char b -> rsplit1 (a ++ ":" ++ b) = Some (a, b).
Proof. intro N. induction a as [|x a IH]; [cbn; now rewrite rsplit_none|]. cbn [append rsplit1]. cbn [append] in IH. now rewrite IH. Qed.
Lemma without_app c a b : without c (a ++ b) <-> without c a /\ without c b.
Proof. unfold without. induction a as [|x a IH]; cbn; [tauto|]. cbn in IH. tauto. Qed.

(** ** Numbers *)
Definition digit_char (c : ascii) : Prop := exists n, (n < 10)%nat /\ c = ascii_of_nat (48 + n).
Lemma digit_is n : digit_char (digit n).
Proof. exists (n mod 10)%nat. split; [apply Nat.mod_upper_bound; lia|reflexivity]. Qed.
Lemma digit_read n : (n < 10)%nat -> digit_of (ascii_of_nat (48 + n)) = Some n.
Proof. intro L. do 10 (destruct n as [|n]; [reflexivity|]). lia. Qed.
Lemma digit_of_digit n : digit_of (digit n) = Some (n mod 10)%nat.
Proof. unfold digit. apply digit_read. apply Nat.mod_upper_bound. lia. Qed.
Lemma uint_chars d c : In c (list_ascii_of_string (NilEmpty.string_of_uint d)) -> digit_char c.
Proof.
  induction d; cbn; intro I; [contradiction|..]; (destruct I as [<-|I]; [|now apply IHd]).
  all: match goal with |- digit_char ?a => first [exists 0%nat; split; [lia|reflexivity]|exists 1%nat; split; [lia|reflexivity]|exists 2%nat; split; [lia|reflexivity]|exists 3%nat; split; [lia|reflexivity]|exists 4%nat; split; [lia|reflexivity]|exists 5%nat; split; [lia|reflexivity]|exists 6%nat; split; [lia|reflexivity]|exists 7%nat; split; [lia|reflexivity]|exists 8%nat; split; [lia|reflexivity]|exists 9%nat; split; [lia|reflexivity]] end.
Qed.
Lemma thousandths_chars n c : In c (list_ascii_of_string (thousandths n)) -> digit_char c \/ c = "."%char.
Proof.
  unfold thousandths. set (u := NilEmpty.string_of_uint _). assert (U : forall c, In c (list_ascii_of_string u) -> digit_char c) by (intros x Ix; now apply uint_chars in Ix). clearbody u. induction u as [|a u IH]; cbn.
  - intros [<-|[<-|[<-|[<-|[]]]]]; [now right|left; apply digit_is..].
  - intros [<-|I]; [left; apply U; now left|]. apply IH; [|exact I]. intros x Ix. apply U. now right.
Qed.
Lemma digit_not c x : digit_char c -> (forall n, (n < 10)%nat -> ascii_of_nat (48 + n) <> x) -> c <> x.
Proof. intros (n & L & ->) H. now apply H. Qed.
Lemma thousandths_clean n : without ":"%char (thousandths n) /\ without newline (thousandths n).
Proof.
  split; intro I; apply thousandths_chars in I as [I|I]; try discriminate; destruct I as (k & L & E); do 10 (destruct k as [|k]; [discriminate|]); lia.
Qed.
Lemma uint_no_point d : without "."%char (NilEmpty.string_of_uint d).
Proof. intro I. apply uint_chars in I as (k & L & E). do 10 (destruct k as [|k]; [discriminate|]). lia. Qed.
Lemma digits_uint d : forall acc, digits acc (NilEmpty.string_of_uint d) = Some (Nat.of_uint_acc d acc).
Proof. induction d; intro acc; cbn [NilEmpty.string_of_uint digits Nat.of_uint_acc]; [reflexivity|..]; (match goal with |- context [digit_of ?c] => let v := eval vm_compute in (digit_of c) in change (digit_of c) with v end; cbv iota; rewrite IHd; f_equal; f_equal; rewrite Nat.tail_mul_spec; lia). Qed.
Lemma digits_nat n : digits 0 (NilEmpty.string_of_uint (Nat.to_uint n)) = Some n.
Proof. rewrite digits_uint. f_equal. apply Unsigned.of_to. Qed.
(** What is written is read back exactly. *)
Theorem C108_read_back n : exists q, number (thousandths n) = Some q /\ q == inject_Z (Z.of_nat n) / 1000.
Proof.
  unfold number, thousandths. rewrite split_cons by apply uint_no_point. rewrite split_plain. 2:{ intros [E|[E|[E|[]]]]; symmetry in E; revert E; (apply digit_not with (x := "."%char) || idtac). all: intro E; pose proof (digit_is (n / 100)) as (a & La & Ea); pose proof (digit_is (n / 10)) as (b & Lb & Eb); pose proof (digit_is n) as (c & Lc & Ec). all: try (rewrite Ea in E; do 10 (destruct a as [|a]; [discriminate|]); lia). all: try (rewrite Eb in E; do 10 (destruct b as [|b]; [discriminate|]); lia). all: try (rewrite Ec in E; do 10 (destruct c as [|c]; [discriminate|]); lia). }
  replace (String.eqb (String (digit (n / 100)) (String (digit (n / 10)) (String (digit n) ""))) "") with false by reflexivity. rewrite andb_false_r. rewrite digits_nat. cbn [digits]. rewrite !digit_of_digit. cbn [digits]. eexists. split; [reflexivity|]. cbn [String.length].
  replace (10 * (10 * (10 * 0 + (n / 100) mod 10) + (n / 10) mod 10) + n mod 10)%nat with (n mod 1000)%nat.
  2:{ assert (D2 : (n / 10 / 10 = n / 100)%nat) by (rewrite Nat.div_div by lia; reflexivity). assert (D3 : (n / 100 / 10 = n / 1000)%nat) by (rewrite Nat.div_div by lia; reflexivity). pose proof (Nat.div_mod n 10 ltac:(lia)) as E1. pose proof (Nat.div_mod (n / 10) 10 ltac:(lia)) as E2. pose proof (Nat.div_mod (n / 100) 10 ltac:(lia)) as E3. pose proof (Nat.div_mod n 1000 ltac:(lia)) as E4. rewrite D2 in E2. rewrite D3 in E3. lia. }
  change (inject_Z (10 ^ Z.of_nat 3)) with (1000 # 1). pose proof (Nat.div_mod n 1000 ltac:(lia)) as D. rewrite D at 3. rewrite Nat2Z.inj_add, Nat2Z.inj_mul, inject_Z_plus, inject_Z_mult. change (inject_Z (Z.of_nat 1000)) with (1000 # 1). field.
Qed.

(** ** Writing weights *)
Lemma to_thousandths_near q : (0 <= q)%Q -> (Qabs (inject_Z (Z.of_nat (to_thousandths q)) - q * 1000) <= 1 # 2)%Q.
Proof.
  intro P. unfold to_thousandths. pose proof (rhe_mono 0 (q * 1000)%Q ltac:(lra)) as M. change 0%Q with (inject_Z 0) in M. rewrite rhe_int in M. rewrite Z2Nat.id by exact M. apply rhe_near.
Qed.
Lemma rhe_ext x y : x == y -> round_half_even x = round_half_even y.
Proof. intro E. apply Z.le_antisymm; apply rhe_mono; rewrite E; apply Qle_refl. Qed.
Lemma weight_text_ext x y : x == y -> weight_text x = weight_text y.
Proof. intro E. unfold weight_text, to_thousandths. f_equal. f_equal. apply rhe_ext. now rewrite E. Qed.

(** ** The specification: an entry is a run (model and cycle) and a weight in thousandths *)
Record entry := { e_run : string; e_weight : nat }.
Definition line (e : entry) : string := e_run e ++ ":" ++ thousandths (e_weight e).
Definition text (l : list entry) : string := String.concat nl (map line l).
Definition clean (e : entry) : Prop := without newline (e_run e).
(** The entry after weighting: its weight is the product to the nearest thousandth. *)
Definition weighted (w : Q) (e : entry) : entry := {| e_run := e_run e; e_weight := to_thousandths (inject_Z (Z.of_nat (e_weight e)) / 1000 * w) |}.
Definition alphabetical (l : list string) : Prop := StronglySorted (fun a b => String.leb a b = true) l.
Lemma line_clean e : clean e -> without newline (line e).
Proof. intro C. unfold line. rewrite !without_app. repeat split; [exact C| |apply thousandths_clean]. intros [E|[]]; discriminate. Qed.
Lemma text_lines l : l <> [] -> Forall clean l -> split_on newline (text l) = map line l.
Proof. intros N F. apply split_concat; [destruct l; [contradiction|discriminate]|]. apply Forall_map. eapply Forall_impl; [|exact F]. apply line_clean. Qed.
Lemma update_line_ok w e : update_line w (line e) = Ok (line (weighted w e)).
Proof.
  unfold update_line, line. rewrite rsplit_last by apply thousandths_clean. destruct (C108_read_back (e_weight e)) as (q & -> & E). unfold weighted. cbn [e_run e_weight]. do 3 f_equal. unfold weight_text. f_equal. unfold to_thousandths. f_equal. apply rhe_ext. now rewrite E.
Qed.
Lemma mapM_ok_map {A B} (f : A -> result B) (g : A -> B) l : (forall a, In a l -> f a = Ok (g a)) -> mapM f l = Ok (map g l).
Proof. induction l as [|a l IH]; intro H; [reflexivity|]. cbn [mapM map]. rewrite H by now left. cbn [bind]. rewrite IH by (intros; apply H; now right). reflexivity. Qed.
(** C108: each run keeps its entry, with its weight multiplied and rounded; the lines are in alphabetical order. *)
Theorem C108_update w l : l <> [] -> Forall clean l -> exists out l', update_record w (text l) = Ok out /\ out = text l' /\ Permutation l' (map (weighted w) l) /\ alphabetical (split_on newline out).
Proof.
  intros N F. unfold update_record. rewrite text_lines by assumption. rewrite (mapM_ok_map _ (fun s => match update_line w s with Ok t => t | Err _ => s end)). 2:{ intros s Is. apply in_map_iff in Is as (e & <- & _). now rewrite update_line_ok. }
  cbn [bind]. rewrite map_map. rewrite (map_ext _ (fun e => line (weighted w e))) by (intro e; now rewrite update_line_ok). rewrite <- (map_map (weighted w) line). set (es := map (weighted w) l).
  destruct (Permutation_map_inv line es (Permutation_sym (isort_perm String.leb (map line es)))) as (l' & El & P). exists (String.concat nl (isort String.leb (map line es))), l'. split; [reflexivity|]. split; [unfold text; now rewrite El|]. split; [now symmetry|].
  assert (C' : Forall clean l'). { apply (Permutation_Forall P). unfold es. apply Forall_map. exact F. } rewrite El. fold (text l'). rewrite text_lines; [|destruct l'; [apply Permutation_sym, Permutation_nil in P; unfold es in P; destruct l; [contradiction|discriminate]|discriminate]|exact C']. rewrite <- El. apply sorted_names.
Qed.
(** A line without a weight (an older record) is refused. *)
Theorem C108_no_weight w s : (exists l, In l (split_on newline s) /\ (rsplit1 l = None /\ number l = None \/ exists a b, rsplit1 l = Some (a, b) /\ number b = None)) -> update_record w s = Err ValueError.
Proof.
  intros (l & Il & H). assert (B : update_line w l = Err ValueError). { unfold update_line. destruct H as [[-> ->]|(a & b & -> & ->)]; reflexivity. } unfold update_record. assert (M : mapM (update_line w) (split_on newline s) = Err ValueError); [|now rewrite M].
  assert (V : forall x e, update_line w x = Err e -> e = ValueError). { intros x e. unfold update_line. destruct (match rsplit1 x with Some q => q | None => (x, x) end) as [a b]. destruct (number b); [discriminate|now intros [= <-]]. }
  induction (split_on newline s) as [|x r IH]; [contradiction|]. cbn [mapM]. destruct Il as [->|Il]; [now rewrite B|]. destruct (update_line w x) as [y|e] eqn:E; cbn [bind]; [|f_equal; now apply V in E]. now rewrite IH.
Qed.

(** ** How far the recorded weights are from the true ones *)
Definition total (l : list entry) : Q := qsum (map (fun e => inject_Z (Z.of_nat (e_weight e)) / 1000) l)%Q.
Theorem C108_weight w e : (0 <= w)%Q -> (Qabs (inject_Z (Z.of_nat (e_weight (weighted w e))) / 1000 - inject_Z (Z.of_nat (e_weight e)) / 1000 * w) <= 5 # 10000)%Q.
Proof.
  intro W. unfold weighted. cbn [e_weight]. set (x := (inject_Z (Z.of_nat (e_weight e)) / 1000 * w)%Q). assert (P : (0 <= x)%Q). { unfold x. apply Qmult_le_0_compat; [|exact W]. apply Qle_shift_div_l; [reflexivity|]. rewrite Qmult_0_l. change 0%Q with (inject_Z 0). rewrite <- Zle_Qle. lia. }
  pose proof (to_thousandths_near x P) as N. set (y := inject_Z (Z.of_nat (to_thousandths x))) in *. clearbody x y. apply Qabs_Qle_condition in N. apply Qabs_Qle_condition. assert (E : (y / 1000 == y * (1 # 1000))%Q) by (unfold Qdiv; reflexivity). rewrite E. lra.
Qed.
(** A blend of slices, each with its weight: what is recorded in all differs from the true total by at most half a thousandth for each entry. *)
Lemma one_total w l : (0 <= w)%Q -> (Qabs (total (map (weighted w) l) - total l * w) <= inject_Z (Z.of_nat (length l)) * (5 # 10000))%Q.
Proof.
  intro W. induction l as [|e l IH]; [unfold total; cbn [map qsum length]; setoid_replace (0 - 0 * w)%Q with 0%Q by ring; discriminate|]. unfold total in *. cbn [map qsum length]. pose proof (C108_weight w e W) as E. rewrite Nat2Z.inj_succ. unfold Z.succ. rewrite inject_Z_plus. set (a := qsum (map _ (map (weighted w) l))) in *. set (b := qsum (map (fun e => inject_Z (Z.of_nat (e_weight e)) / 1000)%Q l)) in *. set (u := (inject_Z (Z.of_nat (e_weight (weighted w e))) / 1000)%Q) in *. set (v := (inject_Z (Z.of_nat (e_weight e)) / 1000)%Q) in *. set (n := inject_Z (Z.of_nat (length l))) in *. clearbody a b u v n. apply Qabs_Qle_condition in E. apply Qabs_Qle_condition in IH. apply Qabs_Qle_condition. change (inject_Z 1) with 1%Q. split; nra.
Qed.
Theorem C108_total (slices : list (Q * list entry)) : Forall (fun s => (0 <= fst s)%Q) slices ->
  (Qabs (total (flat_map (fun s => map (weighted (fst s)) (snd s)) slices) - qsum (map (fun s => fst s * total (snd s)) slices)) <= inject_Z (Z.of_nat (length (flat_map snd slices))) * (5 # 10000))%Q.
Proof.
  induction 1 as [|[w l] r W F IH]; [vm_compute; discriminate|]. cbn [flat_map map qsum fst snd] in *. rewrite app_length, Nat2Z.inj_add, inject_Z_plus. pose proof (one_total w l W) as O. assert (A : (total (map (weighted w) l ++ flat_map (fun s => map (weighted (fst s)) (snd s)) r) == total (map (weighted w) l) + total (flat_map (fun s => map (weighted (fst s)) (snd s)) r))%Q). { unfold total. rewrite map_app, qsum_app. reflexivity. } rewrite A.
  set (a := total (map (weighted w) l)) in *. set (b := total (flat_map _ r)) in *. set (c := qsum (map _ r)) in *. set (t := total l) in *. set (n := inject_Z (Z.of_nat (length l))) in *. set (m := inject_Z (Z.of_nat (length (flat_map snd r)))) in *. clearbody a b c t n m. apply Qabs_Qle_condition in O. apply Qabs_Qle_condition in IH. apply Qabs_Qle_condition. split; lra.
Qed.
(** Weights that add up to one over slices whose records add up to one: one, to within half a thousandth an entry. *)
Theorem C108_total_one (slices : list (Q * list entry)) : Forall (fun s => (0 <= fst s)%Q /\ (total (snd s) == 1)%Q) slices -> (qsum (map fst slices) == 1)%Q ->
  (Qabs (total (flat_map (fun s => map (weighted (fst s)) (snd s)) slices) - 1) <= inject_Z (Z.of_nat (length (flat_map snd slices))) * (5 # 10000))%Q.
Proof.
  intros F S1. pose proof (C108_total slices ltac:(eapply Forall_impl; [|exact F]; intros s [A _]; exact A)) as T. assert (E : (qsum (map (fun s => fst s * total (snd s)) slices) == qsum (map fst slices))%Q). { clear T S1. induction F as [|s r [_ B] F IH]; [reflexivity|]. cbn [map qsum]. rewrite B, IH. ring. } rewrite E, S1 in T. exact T.
Qed.
(** Cycles blended, then models: within a thousandth of the product. *)
Theorem C108_two_stages w v e : (0 <= w)%Q -> (0 <= v <= 1)%Q -> (Qabs (inject_Z (Z.of_nat (e_weight (weighted v (weighted w e)))) / 1000 - inject_Z (Z.of_nat (e_weight e)) / 1000 * w * v) <= 1 # 1000)%Q.
Proof.
  intros W [V1 V2]. pose proof (C108_weight v (weighted w e) V1) as A. pose proof (C108_weight w e W) as B. set (x := (inject_Z (Z.of_nat (e_weight (weighted v (weighted w e)))) / 1000)%Q) in *. set (y := (inject_Z (Z.of_nat (e_weight (weighted w e))) / 1000)%Q) in *. set (z := (inject_Z (Z.of_nat (e_weight e)) / 1000)%Q) in *. clearbody x y z. apply Qabs_Qle_condition in A. apply Qabs_Qle_condition in B. apply Qabs_Qle_condition. split; nra.
Qed.
(** But the recorded weights of a blend need not add up to one, and a run that contributed may be recorded with no weight. *)
Theorem C108_sum_refuted : ~ (forall slices : list (Q * list entry), Forall (fun s => (0 < fst s)%Q /\ (total (snd s) == 1)%Q) slices -> (qsum (map fst slices) == 1)%Q -> (total (flat_map (fun s => map (weighted (fst s)) (snd s)) slices) == 1)%Q).
Proof.
  intro H. pose (e := fun s => [{| e_run := s; e_weight := 1000 |}]). specialize (H [(1 # 3, e "a"); (1 # 3, e "b"); (1 # 3, e "c")]). assert (F : (total (flat_map (fun s => map (weighted (fst s)) (snd s)) [(1 # 3, e "a"); (1 # 3, e "b"); (1 # 3, e "c")]) == 1)%Q) by (apply H; [repeat constructor|reflexivity]). vm_compute in F. discriminate.
Qed.
Theorem C108_vanishes_refuted : ~ (forall w e, (0 < w)%Q -> (0 < e_weight e)%nat -> (0 < e_weight (weighted w e))%nat).
Proof. intro H. specialize (H (1 # 3000)%Q {| e_run := "uk_det:20201105T1200Z"; e_weight := 1000 |} ltac:(reflexivity) ltac:(cbn; lia)). vm_compute in H. lia. Qed.

(** ** Slices of a blend *)
(** Each slice is weighted with the weight of its own point. *)
Theorem C108_slices weights slices out : update_weights weights slices = Ok out -> length out = length slices /\
  forall k p t, nth_error slices k = Some (p, t) -> exists q w t', In (q, w) weights /\ q == p /\ update_record w t = Ok t' /\ nth_error out k = Some (p, t').
Proof.
  unfold update_weights. revert out. induction slices as [|[p0 t0] r IH]; intros out H.
  - injection H as <-. split; [reflexivity|]. intros [|k] p t E; discriminate.
  - cbn [mapM fst snd] in H. destruct (find _ weights) as [[q w]|] eqn:F; [|discriminate]. cbn [snd] in H. destruct (update_record w t0) as [t'|] eqn:U; [|discriminate]. cbn [bind] in H. destruct (mapM _ r) as [o|] eqn:M; [|discriminate]. cbn [bind] in H. injection H as <-. destruct (IH o eq_refl) as [L V]. split; [cbn; now rewrite L|]. intros [|k] p t E; [|exact (V k p t E)]. cbn in E. injection E as <- <-. apply find_some in F as [I B]. apply Qeq_bool_iff in B. exists q, w, t'. repeat split; assumption.
Qed.
(** ** New records *)
Theorem C108_store given cubes out : store_records given cubes = Ok out -> Forall2 (fun m s => match m_record m with Some r => s = r | None => exists id, m_model m = Some id /\ s = line {| e_run := id ++ ":" ++ m_cycle m; e_weight := 1000 |} end) cubes out.
Proof.
  unfold store_records. destruct (_ && _)%bool; [discriminate|]. revert out. induction cubes as [|m r IH]; intros out H; [injection H as <-; constructor|]. cbn [mapM] in H. destruct (store_one m) as [s|] eqn:E; [|discriminate]. cbn [bind] in H. destruct (mapM store_one r) as [o|]; [|discriminate]. cbn [bind] in H. injection H as <-. constructor; [|now apply IH]. unfold store_one in E. destruct (m_record m) as [x|]; [congruence|]. destruct (m_model m) as [id|]; [|discriminate]. exists id. split; [reflexivity|]. injection E as <-. unfold line. cbn [e_run e_weight]. change (weight_text 1) with (thousandths 1000). generalize (thousandths 1000). intro z. clear. induction id as [|a id IH]; cbn; [|f_equal; exact IH]. generalize (m_cycle m). intro c. f_equal. 
Qed.
(** Refused: records missing on some cubes without the name of the model attribute; neither record nor model on a cube. *)
Theorem C108_store_refused given cubes : (given = false /\ Exists (fun m => m_record m = None) cubes -> store_records given cubes = Err ValueError) /\
  (given = true /\ Exists (fun m => m_record m = None /\ m_model m = None) cubes -> store_records given cubes = Err RuntimeError).
Proof.
  split; intros [-> H].
  - unfold store_records. assert (F : forallb (fun m => match m_record m with Some _ => true | None => false end) cubes = false). { apply not_true_is_false. rewrite forallb_forall. intro A. apply Exists_exists in H as (m & I & N). specialize (A m I). now rewrite N in A. } now rewrite F.
  - unfold store_records. cbn [negb andb]. induction H as [m r [A B]|m r _ IH]; cbn [mapM]. + unfold store_one. now rewrite A, B. + unfold store_one at 1. destruct (m_record m); cbn [bind]; [now rewrite IH|]. destruct (m_model m); cbn [bind]; [now rewrite IH|reflexivity].
Qed.

(** ** The attribute *)
Lemma leb_antisym a b : String.leb a b = true -> String.leb b a = true -> a = b.
Proof. rewrite !str_leb_cases. intros [A|A] [B|B]; try congruence. elim (str_lt_irrefl a). eapply str_compare_trans; eassumption. Qed.
Lemma sorted_same l m : StronglySorted (fun a b => String.leb a b = true) l -> StronglySorted (fun a b => String.leb a b = true) m -> Permutation l m -> l = m.
Proof.
  revert m. induction l as [|x l IH]; intros m Sl Sm P; [now apply Permutation_nil in P|]. destruct m as [|y m]; [apply Permutation_sym, Permutation_nil in P; discriminate|]. inversion Sl as [|? ? Sl' Fl]; subst. inversion Sm as [|? ? Sm' Fm]; subst. rewrite Forall_forall in Fl, Fm.
  assert (E : x = y). { assert (Iy : In y (x :: l)) by (apply (Permutation_in _ (Permutation_sym P)); now left). assert (Ix : In x (y :: m)) by (apply (Permutation_in _ P); now left). destruct Iy as [E|Iy]; [exact E|]. destruct Ix as [E|Ix]; [now symmetry|]. apply leb_antisym; [now apply Fl|now apply Fm]. } subst y. f_equal. apply IH; [assumption..|]. now apply Permutation_cons_inv in P.
Qed.
(** The order in which the sources come makes no difference. *)
Theorem C108_order discard points points' : Permutation points points' -> records_to_attr discard points = records_to_attr discard points'.
Proof.
  intro P. unfold records_to_attr. destruct discard; f_equal; apply sorted_same; try apply sorted_names; rewrite <- !isort_perm; [|exact P]. apply NoDup_Permutation; try apply NoDup_nodup. intro x. rewrite !nodup_In. split; apply Permutation_in; [|apply Permutation_sym]; apply Permutation_map; now apply Permutation_flat_map.
Qed.
(** Without weights: every run once, followed by a colon, in alphabetical order. *)
Theorem C108_discard (sources : list (list entry)) : sources <> [] -> Forall (fun l => l <> [] /\ Forall clean l) sources -> let out := split_on newline (records_to_attr true (map text sources)) in
  NoDup out /\ alphabetical out /\ forall s, In s out <-> exists l e, In l sources /\ In e l /\ s = e_run e ++ ":".
Proof.
  intros Ne F. cbv zeta. unfold records_to_attr. set (keys := map _ (flat_map _ _)). assert (K : keys = map (fun e => e_run e ++ ":") (List.concat sources)).
  { unfold keys. clear Ne keys. induction F as [|l r [N C] F IH]; [reflexivity|]. cbn [map flat_map List.concat]. rewrite text_lines by assumption. rewrite !map_app, IH, map_map. f_equal. apply map_ext. intro e. unfold line. now rewrite rsplit_last by apply thousandths_clean. }
  set (u := isort String.leb (nodup string_dec keys)). assert (Iu : forall s, In s u <-> In s keys). { intro s. unfold u. split; intro I. - apply (Permutation_in _ (Permutation_sym (isort_perm _ _))) in I. now apply nodup_In in I. - apply (Permutation_in _ (isort_perm _ _)). now apply nodup_In. }
  assert (Ik : forall s, In s keys <-> exists l e, In l sources /\ In e l /\ s = e_run e ++ ":"). { intro s. rewrite K, in_map_iff. split. - intros (e & <- & I). apply in_concat in I as (l & Il & Ie). now exists l, e. - intros (l & e & Il & Ie & ->). exists e. split; [reflexivity|]. apply in_concat. now exists l. }
  assert (Sp : split_on newline (String.concat nl u) = u). { apply split_concat. - destruct sources as [|l r]; [contradiction|]. inversion_clear F as [|? ? [N _] _]. destruct l as [|e l]; [contradiction|]. intro E. assert (X : In (e_run e ++ ":") u) by (apply Iu, Ik; exists (e :: l), e; split; [now left|]; split; [now left|reflexivity]). rewrite E in X. exact X.
    - apply Forall_forall. intros s Is. apply Iu, Ik in Is as (l & e & Il & Ie & ->). rewrite Forall_forall in F. destruct (F l Il) as [_ C]. rewrite Forall_forall in C. apply without_app. split; [now apply C|]. intros [E|[]]; discriminate. }
  rewrite Sp. split; [|split].
  - apply (Permutation_NoDup (isort_perm String.leb (nodup string_dec keys))). apply NoDup_nodup.
  - apply sorted_names.
  - intro s. rewrite Iu. apply Ik.
Qed.
(** With weights: all the lines of all the sources. They need not be in alphabetical order: the sources are sorted, not their lines. *)
Theorem C108_join (sources : list (list entry)) : sources <> [] -> Forall (fun l => l <> [] /\ Forall clean l) sources -> exists sources', Permutation sources sources' /\ split_on newline (records_to_attr false (map text sources)) = map line (List.concat sources').
Proof.
  intros Ne F. unfold records_to_attr. destruct (Permutation_map_inv text sources (Permutation_sym (isort_perm String.leb (map text sources)))) as (s' & E & P). exists s'. split; [exact P|]. rewrite E. assert (F' : Forall (fun l => l <> [] /\ Forall clean l) s') by (apply (Permutation_Forall P); exact F). assert (N' : s' <> []) by (intro X; subst; apply Permutation_sym, Permutation_nil in P; contradiction). clear - F' N'.
  induction F' as [|l r [N C] F IH]; [contradiction|]. cbn [map List.concat]. rewrite map_app. destruct r as [|m r]; [cbn [map String.concat List.concat]; rewrite app_nil_r; now apply text_lines|]. change (String.concat nl (text l :: map text (m :: r))) with (text l ++ String newline (String.concat nl (map text (m :: r)))).
  rewrite <- IH by discriminate. rewrite <- (text_lines l N C). generalize (String.concat nl (map text (m :: r))). intro t. generalize (text l). intro s. clear. induction s as [|a s IH]; [reflexivity|]. cbn [append split_on]. rewrite IH. destruct (Ascii.eqb a newline); [reflexivity|]. pose proof (split_nonempty newline s). destruct (split_on newline s); [contradiction|reflexivity].
Qed.
Theorem C108_lines_refuted : ~ (forall sources : list (list entry), sources <> [] -> Forall (fun l => l <> [] /\ Forall clean l /\ alphabetical (map line l)) sources -> alphabetical (split_on newline (records_to_attr false (map text sources)))).
Proof.
  intro H. specialize (H [[{| e_run := "a"; e_weight := 1 |}; {| e_run := "d"; e_weight := 1 |}]; [{| e_run := "b"; e_weight := 1 |}; {| e_run := "c"; e_weight := 1 |}]] ltac:(discriminate)). assert (F : alphabetical (split_on newline (records_to_attr false (map text [[{| e_run := "a"; e_weight := 1 |}; {| e_run := "d"; e_weight := 1 |}]; [{| e_run := "b"; e_weight := 1 |}; {| e_run := "c"; e_weight := 1 |}]])))).
  { apply H. constructor; [|constructor; [|constructor]]. all: (split; [discriminate|]; split; [constructor; [|constructor; [|constructor]]; intros [E|[]]; discriminate|]). all: (constructor; [constructor; [constructor|constructor]|constructor; [reflexivity|constructor]]). }
  vm_compute in F. inversion F as [|? ? F2 _]. inversion F2 as [|? ? _ G]. inversion G. discriminate.
Qed.
(** The hypotheses met: the example of the documentation. *)
Example C108_case : store_records true [{| m_record := None; m_model := Some "uk_det"; m_cycle := "20201105T1200Z" |}] = Ok ["uk_det:20201105T1200Z:1.000"] /\
  update_record (1 # 4) "uk_det:20201105T1200Z:1.000" = Ok "uk_det:20201105T1200Z:0.250" /\
  update_record (1 # 2) ("uk_det:20201105T1300Z:0.250" ++ nl ++ "uk_det:20201105T1200Z:0.250") = Ok ("uk_det:20201105T1200Z:0.125" ++ nl ++ "uk_det:20201105T1300Z:0.125") /\
  update_record (1 # 2) "uk_det:20201105T1200Z" = Err ValueError /\ update_record (1 # 2) "uk_det:20201105T1200Z:" = Err ValueError /\
  records_to_attr true ["uk_ens:20201105T1200Z:0.500"; "uk_det:20201105T1200Z:0.125" ++ nl ++ "uk_ens:20201105T1200Z:0.125"] = "uk_det:20201105T1200Z:" ++ nl ++ "uk_ens:20201105T1200Z:".
Proof. vm_compute. repeat split. Qed.

Print Assumptions C108_read_back.
Print Assumptions C108_update.
Print Assumptions C108_no_weight.
Print Assumptions C108_weight.
Print Assumptions C108_total.
Print Assumptions C108_total_one.
Print Assumptions C108_two_stages.
Print Assumptions C108_sum_refuted.
Print Assumptions C108_vanishes_refuted.
Print Assumptions C108_slices.
Print Assumptions C108_store.
Print Assumptions C108_store_refused.
Print Assumptions C108_order.
Print Assumptions C108_discard.
Print Assumptions C108_join.
Print Assumptions C108_lines_refuted.
