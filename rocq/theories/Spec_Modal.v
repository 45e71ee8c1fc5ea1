(** The most frequent value of a list, the largest of equally frequent ones. *)
From Verif Require Import Base.
Definition occurrences (z : Z) (l : list Z) : nat := count_occ Z.eq_dec l z.
Definition is_mode (l : list Z) (r : Z) : Prop :=
  In r l /\ forall z, In z l -> (occurrences z l < occurrences r l)%nat \/ (occurrences z l = occurrences r l /\ (z <= r)%Z).
