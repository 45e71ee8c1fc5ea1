(** Specification vocabulary for reliability tables. *)
From Verif Require Import Base Model_Reliability.

(** [b] is the union of the consecutive bins [g]: counts and sums added, bounds spanned. *)
Definition is_union (g : list rbin) (b : rbin) : Prop :=
  g <> [] /\ rb_obs b == qsum (map rb_obs g) /\ rb_prob b == qsum (map rb_prob g) /\ rb_cnt b == qsum (map rb_cnt g) /\
  rb_lo b = rb_lo (hd rb0 g) /\ rb_hi b = rb_hi (last g rb0).
(** [t'] is obtained from [t] by cutting it into consecutive runs and uniting each. *)
Inductive grouped : list rbin -> list rbin -> Prop :=
| grouped_nil : grouped [] []
| grouped_cons g b t t' : is_union g b -> grouped t t' -> grouped (g ++ t) (b :: t').
(** The same, observation counts apart. *)
Definition with_obs (b : rbin) (o : Q) : rbin :=
  {| rb_obs := o; rb_prob := rb_prob b; rb_cnt := rb_cnt b; rb_lo := rb_lo b; rb_hi := rb_hi b |}.
(** Bins in ascending order, with no overlap, and each bin's mean forecast inside it. *)
Definition ordered_bins : list rbin -> Prop := StronglySorted (fun a b => rb_hi a < rb_lo b).
Definition mean_inside (b : rbin) : Prop := rb_lo b * rb_cnt b <= rb_prob b <= rb_hi b * rb_cnt b.

(** * Building tables *)
(** Forecast [f] lies in the half-open interval number [b] between the edges. *)
Definition falls_in (edges : list Q) (b : nat) (f : option Q) : bool :=
  match f with Some p => (nth b edges 0 <=? p) && (p <? nth (S b) edges 0) | None => false end.
(** The pairs of one point that count: truth not masked, forecast in interval [b]. *)
Definition counted (edges : list Q) (b : nat) (ft : option Q * option Q) : bool :=
  match snd ft with Some _ => falls_in edges b (fst ft) | None => false end.
Definition observed (edges : list Q) (b : nat) (ft : option Q * option Q) : bool :=
  counted edges b ft && match snd ft with Some t => isclose t 1 | None => false end.
Definition forecast_value (ft : option Q * option Q) : Q := match fst ft with Some p => p | None => 0 end.
(** The entry a bin should hold, given all (forecast, truth) pairs at its point. *)
Definition expected_entry (edges : list Q) (b : nat) (pairs : list (option Q * option Q)) : entry :=
  (Qlen (filter (observed edges b) pairs), qsum (map forecast_value (filter (counted edges b) pairs)), Qlen (filter (counted edges b) pairs)).
Definition entry_eq (a b : entry) : Prop := e_obs a == e_obs b /\ e_prob a == e_prob b /\ e_cnt a == e_cnt b.

(** A set of representable numbers with rounding and neighbours (float32 on [0,1]). *)
Record float_grid (F : Q -> Prop) (rnd prev next : Q -> Q) : Prop := {
  fg_rnd : forall x, F (rnd x);
  fg_mono : forall x y, x <= y -> rnd x <= rnd y;
  fg_id : forall x, F x -> rnd x == x;
  fg_zero : F 0; fg_one : F 1;
  fg_prev : forall x y, F x -> F y -> y < x -> y <= prev x;
  fg_prev_lt : forall x, 0 < x -> F x -> prev x < x;
  fg_next : forall x y, F x -> F y -> y < next x -> y <= x;
  fg_next_gt : forall x, x < 1 -> F x -> x < next x }.
