(** C135: what the texts of constraints given to the extract command mean. *)
From Coq Require Import Ascii String.
From Verif Require Import Base Model_Extract Model_ConstraintText.
Local Open Scope string_scope.
Local Open Scope list_scope.
Local Open Scope Q_scope.

(** A text with none of these characters. *)
Definition without (cs : list ascii) (s : string) : Prop := forall a, In a (chars s) -> ~ In a cs.
(** A text that neither begins nor ends with a blank. *)
Definition trimmed (s : string) : Prop := (forall t, s <> (" " ++ t)%string) /\ (forall t, s <> (t ++ " ")%string).
Definition blanks (n : nat) : string := str (repeat " "%char n).

Lemma Ok_inj {A} (x y : A) : Ok x = Ok y -> x = y. Proof. congruence. Qed.
Lemma chars_app a b : chars (a ++ b)%string = chars a ++ chars b.
Proof. induction a as [|c a IH]; [reflexivity|]. cbn. now rewrite IH. Qed.
Lemma str_app a b : str (a ++ b) = (str a ++ str b)%string.
Proof. induction a as [|c a IH]; [reflexivity|]. cbn. now rewrite IH. Qed.
Lemma chars_str l : chars (str l) = l. Proof. apply list_ascii_of_string_of_list_ascii. Qed.
Lemma str_chars s : str (chars s) = s. Proof. apply string_of_list_ascii_of_string. Qed.
Lemma lstrip_blanks n l : lstrip (repeat " "%char n ++ l) = lstrip l.
Proof. induction n; [reflexivity|exact IHn]. Qed.
Lemma rev_repeat {A} (x : A) n : rev (repeat x n) = repeat x n.
Proof. induction n; [reflexivity|]. cbn. rewrite IHn. clear. induction n; [reflexivity|]. cbn. now rewrite IHn. Qed.
Lemma lstrip_same l : (forall r, l <> " "%char :: r) -> lstrip l = l.
Proof. destruct l as [|a r]; [reflexivity|]. intro H. cbn. destruct (Ascii.eqb_spec a " "%char); [subst; now elim (H r)|reflexivity]. Qed.
Lemma trimmed_lists s : trimmed s -> (forall r, chars s <> " "%char :: r) /\ (forall r, rev (chars s) <> " "%char :: r).
Proof.
  intros [A B]. split; intros r E.
  - apply (A (str r)). rewrite <- (str_chars s), E. reflexivity.
  - apply (B (str (rev r))). rewrite <- (str_chars s). change " " with (str [" "%char]). rewrite <- str_app. f_equal. rewrite <- (rev_involutive (chars s)), E. reflexivity.
Qed.
Lemma strip_padded n m s : trimmed s -> strip (repeat " "%char n ++ chars s ++ repeat " "%char m) = chars s.
Proof.
  intro T. apply trimmed_lists in T as [A B]. unfold strip. rewrite lstrip_blanks.
  destruct (chars s) as [|a r] eqn:E.
  - cbn [app]. rewrite <- (app_nil_r (repeat _ m)), lstrip_blanks. reflexivity.
  - assert (A' : forall q, (a :: r) ++ repeat " "%char m <> " "%char :: q).
    { intros q X. cbn [app] in X. apply (f_equal (fun l => hd a l)) in X. cbn [hd] in X. subst a. now elim (A r). }
    rewrite (lstrip_same _ A'). rewrite rev_app_distr, rev_repeat, lstrip_blanks. rewrite lstrip_same by exact B. apply rev_involutive.
Qed.
Lemma cut_first c k r : ~ In c k -> cut c (k ++ c :: r) = Some (k, r).
Proof.
  induction k as [|a k IH]; intro H; cbn [app cut].
  - now rewrite Ascii.eqb_refl.
  - destruct (Ascii.eqb_spec a c) as [->|_]; [elim H; now left|]. rewrite IH by (intro X; apply H; now right). reflexivity.
Qed.
Lemma cut_none c l : ~ In c l -> cut c l = None.
Proof. induction l as [|a l IH]; intro H; [reflexivity|]. cbn. destruct (Ascii.eqb_spec a c) as [->|_]; [elim H; now left|]. rewrite IH by (intro X; apply H; now right). reflexivity. Qed.
Lemma split_one c l : ~ In c l -> split c l = [l].
Proof. induction l as [|a l IH]; intro H; [reflexivity|]. cbn. destruct (Ascii.eqb_spec a c) as [->|_]; [elim H; now left|]. rewrite IH by (intro X; apply H; now right). reflexivity. Qed.
Lemma split_cons c l r : ~ In c l -> split c (l ++ c :: r) = l :: split c r.
Proof.
  induction l as [|a l IH]; intro H; cbn [app split].
  - now rewrite Ascii.eqb_refl.
  - destruct (Ascii.eqb_spec a c) as [->|_]; [elim H; now left|]. rewrite IH by (intro X; apply H; now right). reflexivity.
Qed.
Lemma has_iff c l : has c l = true <-> In c l.
Proof. unfold has. rewrite existsb_exists. split; [intros (x & H & E); apply Ascii.eqb_eq in E; now subst|]. intro H. exists c. split; [exact H|apply Ascii.eqb_refl]. Qed.
Lemma in_repeat c n : In c (repeat " "%char n) -> c = " "%char. Proof. intro H. apply repeat_spec in H. exact H. Qed.

(** The whole text: blanks around the key and around the value do not matter, and only the first equals sign counts. *)
Definition written (n1 n2 n3 n4 : nat) (k v : string) : string := (blanks n1 ++ k ++ blanks n2 ++ "=" ++ blanks n3 ++ v ++ blanks n4)%string.
Lemma chars_written n1 n2 n3 n4 k v : chars (written n1 n2 n3 n4 k v) = (repeat " "%char n1 ++ chars k ++ repeat " "%char n2) ++ "="%char :: (repeat " "%char n3 ++ chars v ++ repeat " "%char n4).
Proof. unfold written, blanks. rewrite !chars_app, !chars_str. cbn [chars app]. rewrite <- !app_assoc. reflexivity. Qed.
Lemma cut_written n1 n2 n3 n4 k v : without ["="%char] k ->
  cut "=" (chars (written n1 n2 n3 n4 k v)) = Some (repeat " "%char n1 ++ chars k ++ repeat " "%char n2, repeat " "%char n3 ++ chars v ++ repeat " "%char n4).
Proof.
  intro W. rewrite chars_written. apply cut_first. rewrite !in_app_iff. intros [H|[H|H]]; [apply in_repeat in H; discriminate| |apply in_repeat in H; discriminate].
  apply (W _ H). now left.
Qed.
Lemma parse_written r n1 n2 n3 n4 k v : without ["="%char] k -> trimmed k -> trimmed v ->
  parse_one r (written n1 n2 n3 n4 k v) =
  if has ":" (chars v) then read_range r k (chars v) else
  match r_literal r v with Unreadable => Ok (Text k v) | Malformed => Err RuntimeError | Numbers l => Ok (Test k (Values l)) | Other => Err NotImplementedError end.
Proof. intros W TK TV. unfold parse_one. rewrite cut_written by exact W. rewrite !strip_padded by assumption. rewrite !str_chars. reflexivity. Qed.

Definition plain (s : string) : Prop := without [":"; "["; "]"]%char s.
Lemma plain_colon s : plain s -> ~ In ":"%char (chars s). Proof. intros P H. apply (P _ H). now left. Qed.
Definition nb (a : ascii) : bool := (negb (Ascii.eqb a "[") && negb (Ascii.eqb a "]"))%bool.
Lemma plain_filter s : plain s -> filter nb (chars s) = chars s.
Proof.
  intro P. assert (G : forall a, In a (chars s) -> nb a = true).
  { intros a H. specialize (P a H). unfold nb. destruct (Ascii.eqb_spec a "["%char) as [->|_]; [elim P; right; now left|]. destruct (Ascii.eqb_spec a "]"%char) as [->|_]; [elim P; right; right; now left|]. reflexivity. }
  clear P. induction (chars s) as [|a l IH]; [reflexivity|]. cbn. rewrite (G a) by now left. now rewrite IH by (intros; apply G; now right).
Qed.

Lemma trimmed_brackets s : trimmed ("[" ++ s ++ "]")%string.
Proof.
  split; intros t E; [discriminate|]. apply (f_equal chars) in E. change ("[" ++ s ++ "]")%string with (("[" ++ s) ++ "]")%string in E. rewrite !chars_app in E.
  cbn [chars] in E. apply app_inj_tail in E as [_ E]. discriminate.
Qed.
Lemma range_parts_two a b : plain a -> plain b -> range_parts (chars ("[" ++ a ++ ":" ++ b ++ "]")) = [chars a; chars b].
Proof.
  intros A B. unfold range_parts. fold nb. rewrite !chars_app. cbn [chars app]. cbn [filter]. change (nb "[") with false. cbv iota. rewrite filter_app, plain_filter by exact A.
  cbn [filter]. change (nb ":") with true. cbv iota. rewrite filter_app, plain_filter by exact B. cbn [filter]. change (nb "]") with false. cbv iota. rewrite app_nil_r.
  rewrite split_cons by (apply plain_colon; exact A). rewrite split_one by (apply plain_colon; exact B). reflexivity.
Qed.
Lemma range_parts_three a b s : plain a -> plain b -> plain s -> range_parts (chars ("[" ++ a ++ ":" ++ b ++ ":" ++ s ++ "]")) = [chars a; chars b; chars s].
Proof.
  intros A B C. unfold range_parts. fold nb. rewrite !chars_app. cbn [chars app]. cbn [filter]. change (nb "[") with false. cbv iota. rewrite filter_app, plain_filter by exact A.
  cbn [filter]. change (nb ":") with true. cbv iota. rewrite filter_app, plain_filter by exact B. cbn [filter]. change (nb ":") with true. cbv iota. rewrite filter_app, plain_filter by exact C.
  cbn [filter]. change (nb "]") with false. cbv iota. rewrite app_nil_r.
  rewrite split_cons by (apply plain_colon; exact A). rewrite split_cons by (apply plain_colon; exact B). rewrite split_one by (apply plain_colon; exact C). reflexivity.
Qed.

(** C135: [key=[a:b]] is the range from a to b of that coordinate, whatever the blanks; ends that are not numbers, also empty ones, are refused. *)
Theorem C135_range r n1 n2 n3 n4 k a b : without ["="%char] k -> trimmed k -> k <> "longitude" -> plain a -> plain b ->
  parse_one r (written n1 n2 n3 n4 k ("[" ++ a ++ ":" ++ b ++ "]")) = match r_float r a, r_float r b with Some x, Some y => Ok (Test k (Range x y None)) | _, _ => Err ValueError end.
Proof.
  intros W T L A B. rewrite parse_written by (auto using trimmed_brackets; change ("[" ++ a ++ ":" ++ b ++ "]")%string with ("[" ++ (a ++ ":" ++ b ++ "]"))%string;
    replace (a ++ ":" ++ b ++ "]")%string with ((a ++ ":" ++ b) ++ "]")%string by (rewrite <- (str_chars (a ++ ":" ++ b ++ "]")), <- (str_chars ((a ++ ":" ++ b) ++ "]")); f_equal; rewrite !chars_app, <- !app_assoc; reflexivity); apply trimmed_brackets).
  assert (HC : has ":" (chars ("[" ++ a ++ ":" ++ b ++ "]")) = true) by (apply has_iff; rewrite !chars_app, !in_app_iff; right; right; left; now left). rewrite HC.
  unfold read_range. rewrite range_parts_two by assumption. rewrite !str_chars. destruct (r_float r a), (r_float r b); try reflexivity. cbn. destruct (String.eqb_spec k "longitude"); [contradiction|reflexivity].
Qed.
Lemma chars_eq a b : chars a = chars b -> a = b. Proof. intro H. rewrite <- (str_chars a), <- (str_chars b), H. reflexivity. Qed.
(** C135: [key=[a:b:s]] is the same range of which every s-th point is kept; an empty step is none; a step that is not a whole number is refused. *)
Theorem C135_step r n1 n2 n3 n4 k a b s : without ["="%char] k -> trimmed k -> k <> "longitude" -> plain a -> plain b -> plain s ->
  parse_one r (written n1 n2 n3 n4 k ("[" ++ a ++ ":" ++ b ++ ":" ++ s ++ "]")) =
  match r_float r a, r_float r b with
  | Some x, Some y => if String.eqb s "" then Ok (Test k (Range x y None)) else match r_int r s with Some z => Ok (Test k (Range x y (Some z))) | None => Err ValueError end
  | _, _ => Err ValueError
  end.
Proof.
  intros W T L A B C.
  assert (TB : trimmed ("[" ++ a ++ ":" ++ b ++ ":" ++ s ++ "]")).
  { replace ("[" ++ a ++ ":" ++ b ++ ":" ++ s ++ "]")%string with ("[" ++ (a ++ ":" ++ b ++ ":" ++ s) ++ "]")%string by (apply chars_eq; rewrite !chars_app, <- !app_assoc; reflexivity). apply trimmed_brackets. }
  rewrite parse_written by assumption.
  assert (HC : has ":" (chars ("[" ++ a ++ ":" ++ b ++ ":" ++ s ++ "]")) = true) by (apply has_iff; rewrite !chars_app, !in_app_iff; right; right; left; now left). rewrite HC.
  unfold read_range. rewrite range_parts_three by assumption. rewrite !str_chars. destruct (r_float r a), (r_float r b); try reflexivity. unfold read_step.
  destruct (chars s) as [|c l] eqn:E.
  - assert (X : s = ""%string) by (apply chars_eq; exact E). subst s. cbn [bind String.eqb]. destruct (String.eqb_spec k "longitude"); [contradiction|reflexivity].
  - rewrite <- E, str_chars. destruct (String.eqb_spec s "") as [->|_]; [discriminate E|]. destruct (r_int r s); [|reflexivity]. cbn [bind]. destruct (String.eqb_spec k "longitude"); [contradiction|reflexivity].
Qed.
(** C135: longitudes are read apart: a range of longitude never becomes a test of points. *)
Theorem C135_longitude r n1 n2 n3 n4 a b : plain a -> plain b ->
  parse_one r (written n1 n2 n3 n4 "longitude" ("[" ++ a ++ ":" ++ b ++ "]")) = match r_float r a, r_float r b with Some x, Some y => Ok (Longitude x y None) | _, _ => Err ValueError end.
Proof.
  intros A B.
  assert (TB : trimmed ("[" ++ a ++ ":" ++ b ++ "]")).
  { replace ("[" ++ a ++ ":" ++ b ++ "]")%string with ("[" ++ (a ++ ":" ++ b) ++ "]")%string by (apply chars_eq; rewrite !chars_app, <- !app_assoc; reflexivity). apply trimmed_brackets. }
  assert (W : without ["="%char] "longitude") by (intros c Hc [<-|[]]; cbn in Hc; repeat destruct Hc as [Hc|Hc]; try discriminate Hc; destruct Hc).
  assert (TK : trimmed "longitude") by (split; intros t E; [discriminate E|]; apply (f_equal (fun s => hd " "%char (rev (chars s)))) in E; rewrite chars_app, rev_app_distr in E; discriminate E).
  rewrite parse_written by assumption.
  assert (HC : has ":" (chars ("[" ++ a ++ ":" ++ b ++ "]")) = true) by (apply has_iff; rewrite !chars_app, !in_app_iff; right; right; left; now left). rewrite HC.
  unfold read_range. rewrite range_parts_two by assumption. rewrite !str_chars. destruct (r_float r a), (r_float r b); reflexivity.
Qed.
(** C135: the value of any other text is read as a Python literal; what is not one is a text to be compared with. Equals signs in the value belong to it. *)
Theorem C135_value r n1 n2 n3 n4 k v : without ["="%char] k -> trimmed k -> trimmed v -> without [":"%char] v ->
  (forall l, r_literal r v = Numbers l -> parse_one r (written n1 n2 n3 n4 k v) = Ok (Test k (Values l))) /\
  (r_literal r v = Unreadable -> parse_one r (written n1 n2 n3 n4 k v) = Ok (Text k v)).
Proof.
  intros W TK TV C. assert (HC : has ":" (chars v) = false). { destruct (has ":" (chars v)) eqn:E; [|reflexivity]. apply has_iff in E. elim (C _ E). now left. }
  rewrite parse_written by assumption. rewrite HC. split; [intros l ->; reflexivity|intros ->; reflexivity].
Qed.
(** C135: brackets do not matter: a range may be given without them. *)
Theorem C135_brackets r n1 n2 n3 n4 k a b : without ["="%char] k -> trimmed k -> plain a -> plain b -> trimmed (a ++ ":" ++ b) ->
  parse_one r (written n1 n2 n3 n4 k (a ++ ":" ++ b)) = parse_one r (written n1 n2 n3 n4 k ("[" ++ a ++ ":" ++ b ++ "]")).
Proof.
  intros W TK A B T.
  assert (TB : trimmed ("[" ++ a ++ ":" ++ b ++ "]")).
  { replace ("[" ++ a ++ ":" ++ b ++ "]")%string with ("[" ++ (a ++ ":" ++ b) ++ "]")%string by (apply chars_eq; rewrite !chars_app, <- !app_assoc; reflexivity). apply trimmed_brackets. }
  rewrite !parse_written by assumption.
  assert (H1 : has ":" (chars ("[" ++ a ++ ":" ++ b ++ "]")) = true) by (apply has_iff; rewrite !chars_app, !in_app_iff; right; right; left; now left).
  assert (H2 : has ":" (chars (a ++ ":" ++ b)) = true) by (apply has_iff; rewrite !chars_app, !in_app_iff; right; left; now left). rewrite H1, H2.
  unfold read_range. rewrite range_parts_two by assumption.
  assert (E : range_parts (chars (a ++ ":" ++ b)) = [chars a; chars b]).
  { unfold range_parts. fold nb. rewrite !chars_app. cbn [chars app]. rewrite filter_app, plain_filter by exact A. cbn [filter]. change (nb ":") with true. cbv iota. rewrite plain_filter by exact B.
    rewrite split_cons by (apply plain_colon; exact A). rewrite split_one by (apply plain_colon; exact B). reflexivity. }
  rewrite E. reflexivity.
Qed.
(** C135: a text without an equals sign is refused, and the units given must be as many as the texts. *)
Theorem C135_refused r constraints units : 
  (exists s, In s constraints /\ without ["="%char] s) \/ (exists us, units = Some us /\ length us <> length constraints) ->
  (forall s e, In s constraints -> parse_one r s = Err e -> e = ValueError) -> parse_list r constraints units = Err ValueError.
Proof.
  intros H E.
  assert (M : (exists s, In s constraints /\ without ["="%char] s) -> mapM (parse_one r) constraints = Err ValueError).
  { intros (s & Hs & W). assert (PS : parse_one r s = Err ValueError). { unfold parse_one. rewrite cut_none; [reflexivity|]. intro X. apply (W _ X). now left. }
    clear H units. induction constraints as [|c cs IH]; [destruct Hs|]. cbn. destruct Hs as [->|Hs]; [rewrite PS; reflexivity|].
    destruct (parse_one r c) as [i|e] eqn:P; [|cbn; f_equal; apply (E c); [now left|exact P]]. cbn [bind]. rewrite IH; [reflexivity| |exact Hs]. intros t u Ht. apply E. now right. }
  unfold parse_list. destruct units as [us|].
  - destruct (Nat.eqb_spec (length us) (length constraints)) as [L|L]; cbn [negb]; [|reflexivity]. destruct H as [H|(u & X & N)]; [rewrite M by exact H; reflexivity|]. injection X as <-. contradiction.
  - destruct H as [H|(u & X & _)]; [rewrite M by exact H; reflexivity|discriminate X].
Qed.
Lemma lookup_put {A} k (v : A) d q : lookup q (put k v d) = if String.eqb k q then Some v else lookup q d.
Proof.
  unfold put, lookup. cbn [find fst]. destruct (String.eqb_spec k q) as [->|N]; [reflexivity|]. f_equal.
  induction d as [|e d IH]; [reflexivity|]. cbn [filter find]. destruct (String.eqb_spec (fst e) k) as [->|_]; cbn [negb].
  - destruct (String.eqb_spec k q); [contradiction|exact IH].
  - cbn [find]. destruct (String.eqb_spec (fst e) q); [reflexivity|exact IH].
Qed.
(** C135: the units of a coordinate are those given with the last of its texts that has units (without blanks around them); None, in whatever case, is no units. *)
Theorem C135_units r constraints us l d : parse_list r constraints (Some us) = Ok (l, Some d) ->
  forall k, lookup k d = fold_left (fun acc e => match snd e with Some u => if (String.eqb (key_of (fst e)) k && negb (none_like u))%bool then Some (str (strip (chars u))) else acc | None => acc end) (combine constraints us) None.
Proof.
  unfold parse_list. destruct (negb _); [discriminate|]. destruct (mapM _ _) as [x|]; [|discriminate]. cbn [bind]. intro H. apply Ok_inj in H. injection H as _ <-. intro k.
  assert (G : forall c (d0 : list (string * string)), lookup k (units_dict c d0) = fold_left (fun acc e => match snd e with Some u => if (String.eqb (key_of (fst e)) k && negb (none_like u))%bool then Some (str (strip (chars u))) else acc | None => acc end) c (lookup k d0)).
  { induction c as [|[s [u|]] c IH]; intro d0; [reflexivity| |exact (IH d0)]. cbn [units_dict fold_left snd fst]. rewrite IH. f_equal. destruct (none_like u); cbn [negb]; [now rewrite andb_false_r|].
    rewrite lookup_put, andb_true_r. reflexivity. }
  exact (G (combine constraints us) []).
Qed.
(** C135: and no units at all are asked for where none are given. *)
Theorem C135_no_units r constraints l d : parse_list r constraints None = Ok (l, d) -> d = None.
Proof. unfold parse_list. destruct (mapM _ _); [|discriminate]. cbn [bind]. intro H. apply Ok_inj in H. now injection H as _ <-. Qed.
(** C135: a text that contains a colon, such as a time of day, cannot be asked for. *)
Theorem C135_colon_refuted : exists r k v, trimmed k /\ trimmed v /\ without ["="%char] k /\ r_literal r v = Unreadable /\ parse_one r (written 0 0 0 0 k v) = Err ValueError.
Proof.
  exists {| r_float := fun _ => None; r_int := fun _ => None; r_literal := fun _ => Unreadable |}, "a"%string, "12:00"%string.
  split; [split; intros t E; [discriminate E|]; apply (f_equal (fun s => hd " "%char (rev (chars s)))) in E; rewrite chars_app, rev_app_distr in E; discriminate E|].
  split; [split; intros t E; [discriminate E|]; apply (f_equal (fun s => hd " "%char (rev (chars s)))) in E; rewrite chars_app, rev_app_distr in E; discriminate E|].
  split; [intros c [<-|[]] [E|[]]; discriminate E|]. split; reflexivity.
Qed.
(** C135: None is only recognised without blanks around it, although blanks around other units do not matter. *)
Theorem C135_blank_none_refuted : exists r constraints us l d, parse_list r constraints (Some us) = Ok (l, Some d) /\ nth 1 us None = Some " None"%string /\ lookup "b" d = Some "None"%string.
Proof.
  exists {| r_float := fun _ => None; r_int := fun _ => None; r_literal := fun _ => Numbers [1] |}, ["a=1"; "b=1"]%string, [Some "hPa"; Some " None"]%string.
  eexists. eexists. split; [vm_compute; reflexivity|]. split; reflexivity.
Qed.
(** C135: the command extracts with the tests that the texts mean (what is extracted is C54). *)
Theorem C135_command r conversions constraints cs ignore_failure c : Forall2 (fun s e => parse_one r s = Ok (Test (fst e) (snd e))) constraints cs ->
  command r conversions constraints None ignore_failure c = extract_process cs None true ignore_failure c.
Proof.
  intro F. unfold command, parse_list.
  assert (M : mapM (parse_one r) constraints = Ok (map (fun e => Test (fst e) (snd e)) cs)) by (induction F as [|s e l q H F IH]; [reflexivity|]; cbn; rewrite H; cbn [bind]; rewrite IH; reflexivity).
  assert (T : tests (map (fun e => Test (fst e) (snd e)) cs) = Ok cs) by (clear; induction cs as [|[k t] l IH]; [reflexivity|]; unfold tests in *; cbn; rewrite IH; reflexivity).
  rewrite M. cbn [bind]. rewrite T. reflexivity.
Qed.
(** C135: with units, each in the conversion of its coordinate, and the result goes back to the units that the cube had. *)
Theorem C135_command_units r conversions constraints us cs d convs ignore_failure c : parse_list r constraints (Some us) = Ok (map (fun e => Test (fst e) (snd e)) cs, Some d) ->
  Forall2 (fun e f => fst f = fst e /\ conversions (fst e) (snd e) = Ok (snd f)) d convs ->
  command r conversions constraints (Some us) ignore_failure c = extract_process cs (Some convs) true ignore_failure c.
Proof.
  intros P F. unfold command. rewrite P. cbn [bind].
  assert (T : tests (map (fun e => Test (fst e) (snd e)) cs) = Ok cs) by (clear; induction cs as [|[k t] l IH]; [reflexivity|]; unfold tests in *; cbn; rewrite IH; reflexivity).
  rewrite T. cbn [bind].
  assert (M : mapM (fun e => let* u := conversions (fst e) (snd e) in Ok (fst e, u)) d = Ok convs) by (clear - F; induction F as [|[k u] [k2 v] l m [K C] F IH]; [reflexivity|]; cbn in *; subst k2; rewrite C; cbn [bind]; rewrite IH; reflexivity).
  rewrite M. reflexivity.
Qed.
Definition small_reader : reader :=
  {| r_float := fun s => if String.eqb s "0" then Some 0 else if String.eqb s " 20" then Some 20 else None; r_int := fun s => if String.eqb s "2" then Some 2%Z else None;
     r_literal := fun s => if String.eqb s "4" then Numbers [4] else if String.eqb s "two words" then Malformed else Unreadable |}.
Example C135_case :
  parse_list small_reader ["y = [0: 20:2]"; "threshold=4"; "name=air=cold"]%string (Some [Some "km"; Some "none"; None]%string) =
    Ok ([Test "y" (Range 0 20 (Some 2%Z)); Test "threshold" (Values [4]); Text "name" "air=cold"]%string, Some [("y", "km")]%string) /\
  parse_list small_reader ["y = [0: 20:2:7]"]%string None = Ok ([Test "y" (Range 0 20 (Some 2%Z))]%string, None) /\
  parse_list small_reader ["y=[:0]"]%string None = Err ValueError /\ parse_list small_reader ["y=two words"]%string None = Err RuntimeError /\
  parse_list small_reader ["threshold"]%string None = Err ValueError.
Proof. vm_compute. repeat split; reflexivity. Qed.

Print Assumptions C135_range.
Print Assumptions C135_step.
Print Assumptions C135_longitude.
Print Assumptions C135_value.
Print Assumptions C135_brackets.
Print Assumptions C135_refused.
Print Assumptions C135_units.
Print Assumptions C135_no_units.
Print Assumptions C135_colon_refuted.
Print Assumptions C135_blank_none_refuted.
Print Assumptions C135_command.
Print Assumptions C135_command_units.
