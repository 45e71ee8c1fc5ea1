(** Model of improver/psychrometric_calculations/cloud_top_temperature.py:36-96, over any number of points. The temperature of the parcel
    (dry ascent and latent heat, lines 71-78) is an argument of each point: a function of the pressure. Metadata are not modelled. *)
From Verif Require Import Base.
Local Open Scope Q_scope.

Record point := { pt_t : Q; pt_p : Q; pt_masked : bool; pt_parcel : Q -> Q; pt_env : nat -> Q }.
(** The state of a point: still rising (not masked in ccl_with_mask) and the temperature so far. *)
Notation state := (bool * Q)%type.
Definition start (p : point) : state := (negb (pt_masked p), pt_t p).
(** lines 67-90 at one point: level [k] with the given pressure. *)
Definition step (k : nat) (pressure : Q) (p : point) (s : state) : state :=
  let crossed := ((pt_parcel p pressure <? pt_env p k) && (pressure <? pt_p p))%bool in
  if (fst s && negb crossed)%bool then (true, pt_parcel p pressure) else (false, snd s).
(** lines 66-93: level after level, until no point is rising. *)
Fixpoint levels (k : nat) (pressures : list Q) (ps : list point) (ss : list state) : list state :=
  match pressures with
  | [] => ss
  | q :: r =>
      let ss := map (fun x => step k q (fst x) (snd x)) (combine ps ss) in
      if negb (existsb fst ss) then ss else levels (S k) r ps ss
  end.
(** lines 94-96: None is masked. *)
Definition minimum_t_diff : Q := 4.
Definition finish (p : point) (s : state) : option Q := if (pt_masked p || (pt_t p - snd s <? minimum_t_diff))%bool then None else Some (snd s).
Definition cloud_top (pressures : list Q) (ps : list point) : list (option Q) :=
  map (fun x => finish (fst x) (snd x)) (combine ps (levels 0 pressures ps (map start ps))).
