(** Specification vocabulary for C73. *)
From Verif Require Import Base Model_Bias Model_Dist Model_Emos Model_EmosTrain.
Local Open Scope Q_scope.

(** [a] has [times] rows of [n] values. *)
Definition shaped (times n : nat) (a : array) : Prop := length a = times /\ Forall (fun r => length r = n) a.
(** The value at time [t] and point [i]. *)
Definition entry (a : array) (ti : nat * nat) : dval := nth (snd ti) (nth (fst ti) a []) Masked.
Definition number (v : dval) : option Q := match v with Num q => Some q | _ => None end.
Definition masked_alike (times n : nat) (a b : array) : Prop := forall t i, (t < times)%nat -> (i < n)%nat -> (entry a (t, i) = Masked <-> entry b (t, i) = Masked).
Definition entry_of (p : predictor) (ti : nat * nat) : dval := match p with Timed a => entry a ti | Static f => nth (snd ti) f Masked end.
(** The k-th truth, the k-th variance and the k-th value of every predictor are those of one time and point; every time and point that is not masked occurs once. *)
Definition paired (times n : nat) (ps : list predictor) (truths variance : array) (p : problem) : Prop :=
  exists pos, NoDup pos /\ (forall t i, In (t, i) pos <-> (t < times)%nat /\ (i < n)%nat /\ entry truths (t, i) <> Masked) /\
    pr_truth p = map (fun ti => number (entry truths ti)) pos /\ pr_variance p = map (fun ti => number (entry variance ti)) pos /\
    pr_predictors p = map (fun pr => map (fun ti => number (entry_of pr ti)) pos) ps.
(** Two arrays have the same values at the land points. *)
Definition agree_on (land : list bool) (a b : array) : Prop := Forall2 (fun r s => length r = length s /\ forall i, nth i land false = true -> nth i r Masked = nth i s Masked) a b.
(** No other point has nearly the coordinates of point [j]. *)
Definition alone (coords : list (Q * Q)) (j : nat) : Prop := forall i, (i < length coords)%nat -> i <> j -> close (fst (nth i coords (0, 0))) (fst (nth j coords (0, 0))) = false \/ close (snd (nth i coords (0, 0))) (snd (nth j coords (0, 0))) = false.
(** The data of one point. *)
Definition at_site (j : nat) (a : array) : list dval := map (fun r => nth j r NotANumber) a.
Definition predictor_at (times : nat) (j : nat) (p : predictor) : list dval := match p with Timed a => at_site j a | Static f => repeat (unmasked (nth j f NotANumber)) times end.
(** A sum of products. *)
Definition weighted (bs xs : list Q) : Q := qsum (map (fun p => fst p * snd p) (combine bs xs)).
(** The pairs that have a truth. *)
Definition with_truth (p : problem) : problem :=
  let idx := filter (fun j => match nth j (pr_truth p) None with Some _ => true | None => false end) (seq 0 (length (pr_truth p))) in
  let pick (r : row) := map (fun j => nth j r None) idx in
  {| pr_predictors := map pick (pr_predictors p); pr_truth := pick (pr_truth p); pr_variance := pick (pr_variance p) |}.
