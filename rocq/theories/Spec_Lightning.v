(** The lightning probability at one point, said directly. *)
From Verif Require Import Base.
Local Open Scope Q_scope.

(** The largest probability allowed for a probability p of precipitation above 0.5 mm/h: 0.0067 at 0, 0.25 at 0.05, 1 from 0.1 on, linear in between. *)
Definition precip_limit (p : Q) : Q :=
  if p <=? 0 then 67 # 10000
  else if p <=? 1 # 20 then (67 # 10000) + ((1 # 4) - (67 # 10000)) * (20 * p)
  else if p <=? 1 # 10 then (1 # 4) + (3 # 4) * (20 * p - 1)
  else 1.
(** The first guess raised to 1 inside a storm or in intense rain, to 1/4 near lightning or in heavy rain; f is the lead time in minutes. *)
Definition raised (f guess rate high torrential : Q) : Q :=
  if ((1 # 2) + f / 180 <=? rate) || (1 # 5 <=? torrential) then Qmax guess 1
  else if (0 <=? rate) || (2 # 5 <=? high) then Qmax guess (1 # 4)
  else guess.
(** What the ice probability i at a threshold with largest effect c asks for: fades linearly over 150 minutes. *)
Definition unit (i : Q) : Q := Qmax 0 (Qmin 1 i).
Definition ice_effect (f c i : Q) : Q := c * (1 - f / 150) * unit i.
Definition with_ice (f : Q) (ices : option (Q * Q * Q)) (p : Q) : Q :=
  match ices with
  | Some (i1, i2, i3) => if f <? 150 then Qmax (ice_effect f (9 # 10) i3) (Qmax (ice_effect f (1 # 2) i2) (Qmax (ice_effect f (1 # 10) i1) p)) else p
  | None => p
  end.
Definition expected (f guess rate any high torrential : Q) (ices : option (Q * Q * Q)) : Q :=
  with_ice f ices (Qmin (raised f guess rate high torrential) (precip_limit any)).
