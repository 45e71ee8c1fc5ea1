(** C85: bracketed sub-commands on the command line. *)
From Coq Require Import List Bool String ZArith Lia Arith.
From Verif Require Import Base Model_Cli.
Import ListNotations.
Local Open Scope string_scope.

(** * Specification *)
(** How nested lists of arguments are written. *)
Fixpoint written (t : tree string) : list string :=
  match t with Leaf s => [s] | Node l => ("[" :: flat_map written l ++ ["]"])%list end.
(** No argument is itself a bracket. *)
Fixpoint plain (t : tree string) : Prop :=
  match t with Leaf s => s <> "[" /\ s <> "]" | Node l => (fix all l := match l with [] => True | t :: r => plain t /\ all r end) l end.
Definition opens (l : list string) : nat := count_occ string_dec l "[".
Definition closes (l : list string) : nat := count_occ string_dec l "]".
(** No bracket is closed that was not opened before. *)
Definition closes_only_open (l : list string) : Prop := forall j, (closes (firstn j l) <= opens (firstn j l))%nat.

Fixpoint tree_rect' {A} (P : tree A -> Prop) (HL : forall a, P (Leaf a)) (HN : forall l, Forall P l -> P (Node l)) (t : tree A) : P t :=
  match t with
  | Leaf a => HL a
  | Node l => HN l ((fix all (l : list (tree A)) : Forall P l := match l with [] => Forall_nil _ | x :: r => Forall_cons x (tree_rect' P HL HN x) (all r) end) l)
  end.
Lemma plain_node : forall l, plain (Node l) <-> Forall plain l.
Proof.
  intro l. cbn [plain]. induction l as [|t r IH]; split; intro H; try constructor; cbn in H.
  - tauto.
  - apply IH. tauto.
  - inversion H; assumption.
  - apply IH. inversion H; assumption.
Qed.

(** * Brackets *)
Lemma eqb_bracket : forall a, a <> "[" -> a <> "]" -> String.eqb a "[" = false /\ String.eqb a "]" = false.
Proof. intros a A B. split; apply String.eqb_neq; assumption. Qed.
Lemma parse_written : forall t, plain t -> forall rest i out stack,
  unbracket_from (written t ++ rest)%list i out stack = unbracket_from rest (i + List.length (written t)) (t :: out) stack.
Proof.
  refine (tree_rect' _ _ _).
  - intros a [A B] rest i out stack. cbn [written app unbracket_from List.length]. destruct (eqb_bracket a A B) as [-> ->]. f_equal. lia.
  - intros l IH P rest i out stack. apply plain_node in P. cbn [written]. rewrite <- app_comm_cons. cbn [unbracket_from]. rewrite String.eqb_refl.
    rewrite <- app_assoc. cbn [List.length]. rewrite app_length. cbn [List.length].
    assert (G : forall done i, unbracket_from (flat_map written l ++ (["]"] ++ rest))%list i done (out :: stack) = unbracket_from rest (i + List.length (flat_map written l) + 1) (Node (rev done ++ l)%list :: out) stack).
    { clear i. induction l as [|t r IHr]; intros done i.
      - cbn [flat_map app List.length]. rewrite app_nil_r. cbn [unbracket_from]. cbn [String.eqb Ascii.eqb Bool.eqb]. f_equal. lia.
      - inversion IH as [|? ? H1 H2]; subst. inversion P as [|? ? P1 P2]; subst. cbn [flat_map]. rewrite <- app_assoc, H1 by exact P1. rewrite (IHr H2 P2). cbn [rev]. rewrite <- app_assoc. cbn [app]. f_equal. rewrite app_length. lia. }
    rewrite G. cbn [rev app]. f_equal. lia.
Qed.
(** Writing nested arguments with brackets and reading them back gives the same arguments. *)
Theorem C85_read_written : forall ts, Forall plain ts -> unbracket (flat_map written ts) = inl ts.
Proof.
  intros ts P. unfold unbracket. rewrite <- (app_nil_r (flat_map written ts)).
  assert (G : forall done i, unbracket_from (flat_map written ts ++ []) i done [] = inl (rev done ++ ts)%list).
  { induction P as [|t r P1 P2 IH]; intros done i; [cbn; rewrite app_nil_r; reflexivity|]. cbn [flat_map]. rewrite <- app_assoc, parse_written by exact P1. rewrite IH. cbn [rev]. rewrite <- app_assoc. reflexivity. }
  apply G.
Qed.
(** Whatever is read is written as the arguments given: nothing is lost, added or reordered, and there is only one reading. *)
Fixpoint pending (stack : list (list (tree string))) (out : list (tree string)) : list string :=
  match stack with [] => flat_map written (rev out) | o :: s => (pending s o ++ "[" :: flat_map written (rev out))%list end.
Lemma flat_map_snoc : forall (l : list (tree string)) t, flat_map written (l ++ [t]) = (flat_map written l ++ written t)%list.
Proof. intros. rewrite flat_map_app. cbn [flat_map]. rewrite app_nil_r. reflexivity. Qed.
Lemma pending_snoc : forall stack out t, pending stack (t :: out) = (pending stack out ++ written t)%list.
Proof. intros [|o s] out t; cbn [pending rev]; rewrite flat_map_snoc; [reflexivity|]. rewrite <- app_assoc. reflexivity. Qed.
Lemma Forall_rev' : forall A (P : A -> Prop) l, Forall P l -> Forall P (rev l).
Proof. intros A P l H. apply Forall_forall. intros x X. apply in_rev in X. eapply Forall_forall; eassumption. Qed.
Lemma parse_sound : forall args i out stack ts, unbracket_from args i out stack = inl ts -> Forall plain out -> Forall (Forall plain) stack ->
  Forall plain ts /\ flat_map written ts = (pending stack out ++ args)%list.
Proof.
  induction args as [|a r IH]; intros i out stack ts H PO PS; cbn [unbracket_from] in H.
  - destruct stack; [|discriminate]. injection H as <-. cbn [pending]. rewrite app_nil_r. split; [apply Forall_rev', PO|reflexivity].
  - destruct (String.eqb_spec a "[") as [->|N1].
    + destruct (IH _ _ _ _ H ltac:(constructor) ltac:(constructor; assumption)) as [A B]. split; [exact A|]. rewrite B. cbn [pending rev flat_map]. rewrite <- app_assoc. reflexivity.
    + destruct (String.eqb_spec a "]") as [->|N2].
      * destruct stack as [|o s]; [discriminate|]. inversion PS as [|? ? P1 P2]; subst. destruct (IH _ _ _ _ H) as [A B]; [constructor; [apply plain_node, Forall_rev', PO|exact P1]|exact P2|].
        split; [exact A|]. rewrite B, pending_snoc. cbn [pending written]. rewrite <- !app_assoc. cbn [app]. rewrite <- app_assoc. reflexivity.
      * destruct (IH _ _ _ _ H) as [A B]; [constructor; [split; assumption|exact PO]|exact PS|]. split; [exact A|]. rewrite B, pending_snoc. cbn [written]. rewrite <- app_assoc. reflexivity.
Qed.
Theorem C85_written_read : forall args ts, unbracket args = inl ts -> Forall plain ts /\ flat_map written ts = args.
Proof. intros args ts H. exact (parse_sound _ _ _ _ _ H (Forall_nil _) (Forall_nil _)). Qed.
Theorem C85_one_reading : forall args ts, unbracket args = inl ts <-> Forall plain ts /\ flat_map written ts = args.
Proof. intros args ts. split; [apply C85_written_read|]. intros [P <-]. apply C85_read_written, P. Qed.

(** The arguments are refused exactly when the brackets do not match, and the position is the first bad one. *)
Lemma opens_cons : forall a l, opens (a :: l) = ((if String.eqb a "[" then 1 else 0) + opens l)%nat.
Proof. intros. unfold opens. cbn [count_occ]. destruct (string_dec a "[") as [->|N]; [reflexivity|]. apply String.eqb_neq in N. rewrite N. reflexivity. Qed.
Lemma closes_cons : forall a l, closes (a :: l) = ((if String.eqb a "]" then 1 else 0) + closes l)%nat.
Proof. intros. unfold closes. cbn [count_occ]. destruct (string_dec a "]") as [->|N]; [reflexivity|]. apply String.eqb_neq in N. rewrite N. reflexivity. Qed.
Lemma parse_cases : forall args i out stack,
  match unbracket_from args i out stack with
  | inl _ => (forall j, closes (firstn j args) <= List.length stack + opens (firstn j args))%nat /\ (closes args = List.length stack + opens args)%nat
  | inr k => exists n, k = (i + n)%nat /\
      ((n = List.length args /\ (forall j, closes (firstn j args) <= List.length stack + opens (firstn j args))%nat /\ (closes args < List.length stack + opens args)%nat)
       \/ (nth_error args n = Some "]" /\ (forall j, j <= n -> closes (firstn j args) <= List.length stack + opens (firstn j args))%nat /\ (closes (firstn n args) = List.length stack + opens (firstn n args))%nat))
  end.
Proof.
  induction args as [|a r IH]; intros i out stack; cbn [unbracket_from].
  - destruct stack as [|o s].
    + split; [intro j; rewrite firstn_nil; cbn; lia|reflexivity].
    + exists 0%nat. split; [lia|]. left. split; [reflexivity|]. split; [intro j; rewrite firstn_nil; cbn; lia|cbn; lia].
  - destruct (String.eqb_spec a "[") as [->|N1].
    + specialize (IH (S i) [] (out :: stack)). destruct (unbracket_from r (S i) [] (out :: stack)) as [ts|k].
      * destruct IH as [A B]. rewrite closes_cons, opens_cons. cbn [String.eqb Ascii.eqb Bool.eqb List.length] in *. split; [|lia]. intros [|j]; [cbn; lia|]. cbn [firstn]. rewrite closes_cons, opens_cons. cbn [String.eqb Ascii.eqb Bool.eqb]. specialize (A j). lia.
      * destruct IH as (n & -> & IH). exists (S n). split; [lia|]. destruct IH as [(-> & A & B)|(A & B & C)]; [left|right].
        -- split; [reflexivity|]. cbn [List.length] in *. split; [|rewrite closes_cons, opens_cons; cbn [String.eqb Ascii.eqb Bool.eqb]; lia]. intros [|j]; [cbn; lia|]. cbn [firstn]. rewrite closes_cons, opens_cons. cbn [String.eqb Ascii.eqb Bool.eqb]. specialize (A j). lia.
        -- split; [exact A|]. cbn [List.length] in *. split; [|cbn [firstn]; rewrite closes_cons, opens_cons; cbn [String.eqb Ascii.eqb Bool.eqb]; lia]. intros [|j] J; [cbn; lia|]. cbn [firstn]. rewrite closes_cons, opens_cons. cbn [String.eqb Ascii.eqb Bool.eqb]. specialize (B j ltac:(lia)). lia.
    + destruct (String.eqb_spec a "]") as [->|N2].
      * destruct stack as [|o s].
        -- exists 0%nat. split; [lia|]. right. split; [reflexivity|]. split; [|reflexivity]. intros j J. replace j with 0%nat by lia. cbn. lia.
        -- specialize (IH (S i) (Node (rev out) :: o) s). destruct (unbracket_from r (S i) (Node (rev out) :: o) s) as [ts|k].
           ++ destruct IH as [A B]. rewrite closes_cons, opens_cons. cbn [String.eqb Ascii.eqb Bool.eqb List.length] in *. split; [|lia]. intros [|j]; [cbn; lia|]. cbn [firstn]. rewrite closes_cons, opens_cons. cbn [String.eqb Ascii.eqb Bool.eqb]. specialize (A j). lia.
           ++ destruct IH as (n & -> & IH). exists (S n). split; [lia|]. destruct IH as [(-> & A & B)|(A & B & C)]; [left|right].
              ** split; [reflexivity|]. cbn [List.length] in *. split; [|rewrite closes_cons, opens_cons; cbn [String.eqb Ascii.eqb Bool.eqb]; lia]. intros [|j]; [cbn; lia|]. cbn [firstn]. rewrite closes_cons, opens_cons. cbn [String.eqb Ascii.eqb Bool.eqb]. specialize (A j). lia.
              ** split; [exact A|]. cbn [List.length] in *. split; [|cbn [firstn]; rewrite closes_cons, opens_cons; cbn [String.eqb Ascii.eqb Bool.eqb]; lia]. intros [|j] J; [cbn; lia|]. cbn [firstn]. rewrite closes_cons, opens_cons. cbn [String.eqb Ascii.eqb Bool.eqb]. specialize (B j ltac:(lia)). lia.
      * apply String.eqb_neq in N1. apply String.eqb_neq in N2. specialize (IH (S i) (Leaf a :: out) stack). destruct (unbracket_from r (S i) (Leaf a :: out) stack) as [ts|k].
        -- destruct IH as [A B]. rewrite closes_cons, opens_cons, N1, N2. split; [|lia]. intros [|j]; [cbn; lia|]. cbn [firstn]. rewrite closes_cons, opens_cons, N1, N2. specialize (A j). lia.
        -- destruct IH as (n & -> & IH). exists (S n). split; [lia|]. destruct IH as [(-> & A & B)|(A & B & C)]; [left|right].
           ++ split; [reflexivity|]. split; [|rewrite closes_cons, opens_cons, N1, N2; lia]. intros [|j]; [cbn; lia|]. cbn [firstn]. rewrite closes_cons, opens_cons, N1, N2. specialize (A j). lia.
           ++ split; [exact A|]. split; [|cbn [firstn]; rewrite closes_cons, opens_cons, N1, N2; lia]. intros [|j] J; [cbn; lia|]. cbn [firstn]. rewrite closes_cons, opens_cons, N1, N2. specialize (B j ltac:(lia)). lia.
Qed.
Theorem C85_accepted : forall args, (exists ts, unbracket args = inl ts) <-> closes_only_open args /\ closes args = opens args.
Proof.
  intro args. pose proof (parse_cases args 0 [] []) as H. unfold unbracket, closes_only_open. destruct (unbracket_from args 0 [] []) as [ts|k].
  - cbn [List.length] in H. split; [intros _; exact H|]. intros _. exists ts. reflexivity.
  - split; [intros [ts Q]; discriminate|]. intros [A B]. exfalso. destruct H as (n & _ & [(-> & _ & L)|(N & _ & C)]); cbn [List.length] in *; [lia|].
    specialize (A (S n)). assert (E : firstn (S n) args = (firstn n args ++ ["]"])%list).
    { clear -N. revert n N. induction args as [|a r IH]; intros [|n] N; cbn in N; try discriminate; [injection N as ->; reflexivity|]. cbn [firstn app]. f_equal. apply IH, N. }
    rewrite E in A. unfold closes, opens in *. rewrite !count_occ_app in A. cbn in A. lia.
Qed.
Theorem C85_mismatch_position : forall args k, unbracket args = inr k ->
  (k = List.length args /\ closes_only_open args /\ closes args < opens args)%nat \/
  (nth_error args k = Some "]" /\ closes_only_open (firstn k args) /\ closes (firstn k args) = opens (firstn k args)).
Proof.
  intros args k H. pose proof (parse_cases args 0 [] []) as C. unfold unbracket in H. rewrite H in C. destruct C as (n & -> & [(-> & A & B)|(A & B & C)]); cbn [List.length plus] in *; [left|right].
  - split; [reflexivity|]. split; [exact A|lia].
  - split; [exact A|]. split; [|lia]. intro j. destruct (le_lt_dec j n) as [L|L].
    + rewrite firstn_firstn, Nat.min_l by lia. apply B. exact L.
    + rewrite firstn_all2; [apply B; lia|]. rewrite firstn_length. lia.
Qed.

(** * Nested commands *)
(** What each command is called with, in which order, and what is passed on (independent of how they are executed):
    a command in brackets is called once, after those inside it and those to the left, and its result takes its place. *)
Section Calls.
Variable f : list value -> result value.
Inductive calls_of : tree value -> list (list value) -> value -> Prop :=
  | calls_leaf : forall v, calls_of (Leaf v) [] (pass_on v)
  | calls_node : forall ts calls vs v, calls_all ts calls vs -> f vs = Ok v -> calls_of (Node ts) (calls ++ [vs]) (pass_on v)
with calls_all : list (tree value) -> list (list value) -> list value -> Prop :=
  | all_nil : calls_all [] [] []
  | all_cons : forall t ts c cs v vs, calls_of t c v -> calls_all ts cs vs -> calls_all (t :: ts) (c ++ cs) (v :: vs).
End Calls.
Fixpoint commands (t : tree value) : nat := match t with Leaf _ => 0 | Node l => S (list_sum (map commands l)) end.
(** A dispatcher that records its calls. *)
Definition recording (f : list value -> result value) (log : list (list value)) (vs : list value) : list (list value) * result value := ((log ++ [vs])%list, f vs).

Lemma run_arg_node : forall St d dry ts (s : St), run_arg d dry (Node ts) s =
  match run_args d dry ts s with
  | (s1, Err e) => (s1, Err e)
  | (s1, Ok vs) => if dry then (s1, Ok (pass_on (Args vs))) else match d s1 vs with (s2, Ok v) => (s2, Ok (pass_on v)) | (s2, Err e) => (s2, Err e) end
  end.
Proof.
  intros St d dry ts s. cbn [run_arg].
  assert (G : forall ts s, (fix run_list (ts : list (tree value)) (s : St) : St * result (list value) :=
        match ts with
        | [] => (s, Ok [])
        | t :: r => match run_arg d dry t s with
            | (s1, Err e) => (s1, Err e)
            | (s1, Ok v) => match run_list r s1 with (s2, Ok vs) => (s2, Ok (v :: vs)) | (s2, Err e) => (s2, Err e) end
            end
        end) ts s = run_args d dry ts s).
  { clear. induction ts as [|t r IH]; intro s; [reflexivity|]. cbn [run_args]. destruct (run_arg d dry t s) as [s1 [v|e]]; [|reflexivity]. rewrite IH. reflexivity. }
  rewrite G. reflexivity.
Qed.
Definition outcome (f : list value -> result value) (t : tree value) : Prop := forall log log' r, run_arg (recording f) false t log = (log', r) ->
  match r with
  | Ok v => exists calls, calls_of f t calls v /\ log' = (log ++ calls)%list /\ List.length calls = commands t
  | Err e => exists calls vs, log' = (log ++ calls ++ [vs])%list /\ f vs = Err e /\ (forall c, In c calls -> exists v, f c = Ok v) /\ (List.length calls < commands t)%nat
  end.
Lemma calls_ok : forall f t calls v, calls_of f t calls v -> forall c, In c calls -> exists v, f c = Ok v.
Proof.
  intros f. fix IH 4. intros t calls v H. destruct H as [v|ts calls vs v HA F]; [intros c []|].
  assert (G : forall ts cs ws, calls_all f ts cs ws -> forall c, In c cs -> exists v, f c = Ok v).
  { fix IHA 4. intros ts0 cs ws HA0. destruct HA0 as [|t ts1 c1 cs1 v1 vs1 H1 H2]; [intros c []|]. intros c X. apply in_app_or in X. destruct X as [X|X]; [exact (IH _ _ _ H1 c X)|exact (IHA _ _ _ H2 c X)]. }
  intros c X. apply in_app_or in X. destruct X as [X|[<-|[]]]; [exact (G _ _ _ HA c X)|exists v; exact F].
Qed.
Lemma outcome_all : forall f ts, Forall (outcome f) ts -> forall log log' r, run_args (recording f) false ts log = (log', r) ->
  match r with
  | Ok vs => exists calls, calls_all f ts calls vs /\ log' = (log ++ calls)%list /\ List.length calls = list_sum (map commands ts)
  | Err e => exists calls vs, log' = (log ++ calls ++ [vs])%list /\ f vs = Err e /\ (forall c, In c calls -> exists v, f c = Ok v) /\ (List.length calls < list_sum (map commands ts))%nat
  end.
Proof.
  intros f ts H. induction H as [|t ts P _ IH]; intros log log' r R; cbn [run_args] in R.
  - injection R as <- <-. exists []. split; [constructor|]. rewrite app_nil_r. split; reflexivity.
  - cbn [map]. change (list_sum (commands t :: map commands ts)) with (commands t + list_sum (map commands ts))%nat. destruct (run_arg (recording f) false t log) as [s1 r1] eqn:R1. pose proof (P _ _ _ R1) as Q. destruct r1 as [v|e].
    + destruct Q as (calls & C & -> & L). destruct (run_args (recording f) false ts (log ++ calls)%list) as [s2 r2] eqn:R2. pose proof (IH _ _ _ R2) as Q2. destruct r2 as [vs|e]; injection R as <- <-.
      * destruct Q2 as (cs & CA & -> & L2). exists (calls ++ cs)%list. split; [constructor; assumption|]. split; [rewrite app_assoc; reflexivity|]. rewrite app_length, L, L2. reflexivity.
      * destruct Q2 as (cs & vs & -> & F & O & L2). exists (calls ++ cs)%list, vs. split; [rewrite <- !app_assoc; reflexivity|]. split; [exact F|]. split; [|rewrite app_length, L; lia]. intros c X. apply in_app_or in X. destruct X as [X|X]; [exact (calls_ok _ _ _ _ C c X)|exact (O c X)].
    + injection R as <- <-. destruct Q as (calls & vs & -> & F & O & L). exists calls, vs. split; [reflexivity|]. split; [exact F|]. split; [exact O|lia].
Qed.
Lemma outcomes : forall f t, outcome f t.
Proof.
  intro f. refine (tree_rect' _ _ _).
  - intros v log log' r R. cbn in R. injection R as <- <-. exists []. split; [constructor|]. rewrite app_nil_r. split; reflexivity.
  - intros l H log log' r R. rewrite run_arg_node in R. destruct (run_args (recording f) false l log) as [s1 r1] eqn:R1. pose proof (outcome_all f l H _ _ _ R1) as Q. cbn [commands]. destruct r1 as [vs|e].
    + destruct Q as (calls & CA & -> & L). unfold recording in R at 1. destruct (f vs) as [v|e] eqn:F; injection R as <- <-.
      * exists (calls ++ [vs])%list. split; [econstructor; eassumption|]. split; [rewrite app_assoc; reflexivity|]. rewrite app_length, L. cbn. lia.
      * exists calls, vs. split; [rewrite app_assoc; reflexivity|]. split; [exact F|]. split; [|lia]. clear -CA. induction CA as [|t ts c cs v vs H1 H2 IH]; [intros c []|]. intros x X. apply in_app_or in X. destruct X as [X|X]; [exact (calls_ok _ _ _ _ H1 x X)|exact (IH x X)].
    + injection R as <- <-. destruct Q as (calls & vs & -> & F & O & L). exists calls, vs. split; [reflexivity|]. split; [exact F|]. split; [exact O|lia].
Qed.
(** Success: every command is called exactly once, in the order above, and the result is that of the last, the outer one. *)
Theorem C85_commands : forall f args log log' v, execute_command (recording f) false args log = (log', Ok v) ->
  exists calls vs, calls_all f args calls vs /\ f vs = Ok v /\ log' = (log ++ calls ++ [vs])%list /\ List.length calls = list_sum (map commands args).
Proof.
  intros f args log log' v H. unfold execute_command in H. destruct (run_args (recording f) false args log) as [s1 r1] eqn:R. pose proof (outcome_all f args (proj2 (Forall_forall _ _) (fun t _ => outcomes f t)) _ _ _ R) as Q. destruct r1 as [vs|e]; [|discriminate].
  destruct Q as (calls & CA & -> & L). exists calls, vs. unfold recording in H. injection H as <- F. split; [exact CA|]. split; [exact F|]. split; [rewrite app_assoc; reflexivity|exact L].
Qed.
(** Failure: the last command called failed, with that exception; the ones before it succeeded, and nothing was called after it. *)
Theorem C85_failure : forall f args log log' e, execute_command (recording f) false args log = (log', Err e) ->
  exists calls vs, log' = (log ++ calls ++ [vs])%list /\ f vs = Err e /\ (forall c, In c calls -> exists v, f c = Ok v) /\ (List.length calls <= list_sum (map commands args))%nat.
Proof.
  intros f args log log' e H. unfold execute_command in H. destruct (run_args (recording f) false args log) as [s1 r1] eqn:R. pose proof (outcome_all f args (proj2 (Forall_forall _ _) (fun t _ => outcomes f t)) _ _ _ R) as Q. destruct r1 as [vs|e1].
  - destruct Q as (calls & CA & -> & L). unfold recording in H. injection H as <- F. exists calls, vs. split; [rewrite app_assoc; reflexivity|]. split; [exact F|]. split; [|lia].
    clear -CA. induction CA as [|t ts c cs v vs H1 H2 IH]; [intros c []|]. intros x X. apply in_app_or in X. destruct X as [X|X]; [exact (calls_ok _ _ _ _ H1 x X)|exact (IH x X)].
  - injection H as <- <-. destruct Q as (calls & vs & -> & F & O & L). exists calls, vs. split; [reflexivity|]. split; [exact F|]. split; [exact O|lia].
Qed.
(** A dry run calls no command, whatever the dispatcher, and never fails once the brackets match. *)
Lemma dry_arg : forall St (d : St -> list value -> St * result value) t s, exists v, run_arg d true t s = (s, Ok v).
Proof.
  intros St d. refine (tree_rect' _ _ _).
  - intros v s. eexists. reflexivity.
  - intros l H s. rewrite run_arg_node. assert (G : exists vs, run_args d true l s = (s, Ok vs)). { induction H as [|t l P _ IH]; [eexists; reflexivity|]. cbn [run_args]. destruct (P s) as [v ->]. destruct IH as [vs ->]. eexists. reflexivity. }
    destruct G as [vs ->]. eexists. reflexivity.
Qed.
Theorem C85_dry_run : forall St (d : St -> list value -> St * result value) command args (s : St), closes_only_open args -> closes args = opens args -> exists v, main d true command args s = (s, Ok v).
Proof.
  intros St d command args s A B. destruct (proj2 (C85_accepted args) (conj A B)) as [ts E]. unfold main. rewrite E. unfold execute_command. cbn [run_args run_arg].
  assert (G : forall l, exists vs, run_args d true l s = (s, Ok vs)). { induction l as [|t l [vs IH]]; [eexists; reflexivity|]. cbn [run_args]. destruct (dry_arg St d t s) as [v ->]. rewrite IH. eexists. reflexivity. }
  destruct (G (map texts ts)) as [vs ->]. eexists. reflexivity.
Qed.
(** Unmatched brackets: no command is called. *)
Theorem C85_unmatched : forall St (d : St -> list value -> St * result value) dry command args (s : St), ~ (closes_only_open args /\ closes args = opens args) -> main d dry command args s = (s, Err ValueError).
Proof.
  intros St d dry command args s N. unfold main. destruct (unbracket args) as [ts|k] eqn:E; [|reflexivity]. exfalso. apply N, C85_accepted. exists ts. exact E.
Qed.
(** ** What the outer command receives *)
(** An object made by an inner command, None included, reaches the outer one as it is, without reading any file; a name does lead to reading the file of that name. *)
Theorem C85_object_reaches : forall converter v, (forall s, v <> Text s) -> (forall s, v <> Path s) -> (forall n w, v <> Wrapped n w) -> coerce converter (pass_on v) = Ok v.
Proof. intros converter [s|s|n w| |l|n m] A B C; try reflexivity; exfalso; [eapply A|eapply B|eapply C]; reflexivity. Qed.
(** An object is wrapped once: passing it through further steps neither buries it nor changes its name. *)
Theorem C85_wrapped_once : forall v, object_as_str (object_as_str v) = object_as_str v /\ pass_on (pass_on v) = pass_on v /\ pass_on (object_as_str v) = object_as_str v.
Proof. intro v. destruct v; repeat split. Qed.
Theorem C85_name_loaded : forall converter s, coerce converter (pass_on (Text s)) = converter s /\ coerce converter (pass_on (Path s)) = converter s.
Proof. intros. split; reflexivity. Qed.
(** With an output file and pass-through the inner command's result is saved under that name and still reaches the outer
    one as the object; without pass-through the outer one receives None; a result that counts as false is not saved. *)
Theorem C85_output : forall truth v f converter, f <> "" -> truth v = true -> (forall s, v <> Text s) -> (forall n w, v <> Wrapped n w) ->
  fst (with_output truth v (Some f) true) = Some (f, v) /\ coerce converter (pass_on (snd (with_output truth v (Some f) true))) = Ok v /\ name_of (pass_on (snd (with_output truth v (Some f) true))) = f /\
  fst (with_output truth v (Some f) false) = Some (f, v) /\ coerce converter (pass_on (snd (with_output truth v (Some f) false))) = Ok NoneV.
Proof.
  intros truth v f converter N T A B. unfold with_output. apply String.eqb_neq in N. rewrite N, T. cbn [negb andb fst snd].
  destruct v; try (repeat split; reflexivity); exfalso; [eapply A|eapply B]; reflexivity.
Qed.
Theorem C85_not_saved : forall truth v output p, output = None \/ output = Some "" \/ truth v = false -> with_output truth v output p = (None, v).
Proof. intros truth v output p H. unfold with_output. destruct output as [f|]; [|reflexivity]. destruct H as [H|[H|H]]; [discriminate|injection H as ->; reflexivity|]. rewrite H, andb_false_r. reflexivity. Qed.

(** * Cases *)
Example C85_case_read : unbracket ["nbhood"; "["; "threshold"; "x.nc"; "["; "t"; "]"; "]"; "--radii=1"] =
  inl [Leaf "nbhood"; Node [Leaf "threshold"; Leaf "x.nc"; Node [Leaf "t"]]; Leaf "--radii=1"].
Proof. reflexivity. Qed.
Example C85_case_bad : unbracket ["a"; "["; "b"; "]"; "]"; "c"] = inr 4%nat /\ unbracket ["a"; "["; "["; "b"; "]"] = inr 5%nat.
Proof. split; reflexivity. Qed.
(** The dispatcher returns an object numbered by the number of its arguments. *)
Example C85_case_run : let f := fun vs : list value => Ok (Object (Z.of_nat (List.length vs)) "cube") in
  fst (main (recording f) false "a" ["["; "b"; "x.nc"; "]"; "["; "c"; "]"] []) =
  [[Text "b"; Text "x.nc"]; [Text "c"]; [Text "a"; Wrapped "cube" (Object 2 "cube"); Wrapped "cube" (Object 1 "cube")]].
Proof. reflexivity. Qed.
Example C85_case_fail : let f := fun vs : list value => match vs with [Text "c"] => Err ValueError | _ => Ok NoneV end in
  main (recording f) false "a" ["["; "b"; "]"; "["; "c"; "]"; "["; "d"; "]"] [] = ([[Text "b"]; [Text "c"]], Err ValueError).
Proof. reflexivity. Qed.

Print Assumptions C85_read_written.
Print Assumptions C85_written_read.
Print Assumptions C85_one_reading.
Print Assumptions C85_accepted.
Print Assumptions C85_mismatch_position.
Print Assumptions C85_commands.
Print Assumptions C85_failure.
Print Assumptions C85_dry_run.
Print Assumptions C85_unmatched.
Print Assumptions C85_object_reaches.
Print Assumptions C85_wrapped_once.
Print Assumptions C85_name_loaded.
Print Assumptions C85_output.
Print Assumptions C85_not_saved.
