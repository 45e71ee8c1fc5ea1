(** Vocabulary for C29. A plugin instance is a state with a call that may change it; its answers should depend on the
    constructor arguments and the call's inputs only, not on earlier calls. *)
From Verif Require Import Base.

Section Machine.
  Context {St In Out : Type} (call : St -> In -> St * Out).
  Definition step (s : St) (i : In) : St := fst (call s i).
  Definition answer (s : St) (i : In) : Out := snd (call s i).
  (** State after a history of calls. *)
  Definition after (s : St) (h : list In) : St := fold_left step h s.
  (** From the constructed state s0: whatever was called before, the next answer is the one a fresh instance gives. *)
  Definition history_independent (s0 : St) : Prop := forall h i, answer (after s0 h) i = answer s0 i.
End Machine.
