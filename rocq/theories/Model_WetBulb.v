(** Model of improver/psychrometric_calculations/wet_bulb_temperature.py (WetBulbTemperature). Temperatures in K, pressures in Pa, humidities as fractions, exact rationals.
    The saturated humidity (psychrometric_calculations.py:161-183, see Model_Psychro.v) of a temperature and a pressure is the argument [sat]. *)
From Coq Require Import QArith Qabs List Bool Arith.
From Verif Require Import Base.
Import ListNotations.
Local Open Scope Q_scope.

(** constants.py: CP_DRY_AIR, CP_WATER_VAPOUR, R_WATER_VAPOUR, LH_CONDENSATION_WATER, LATENT_HEAT_T_DEPENDENCE, ABSOLUTE_ZERO. *)
Definition cp_dry : Q := 1005.
Definition cp_vapour : Q := 1850.
Definition r_vapour : Q := 4616 # 10.
Definition lh_water : Q := 2501000.
Definition lh_slope : Q := 2340.
Definition kelvin : Q := 27315 # 100.
(** psychrometric_calculations.py:186-203. *)
Definition latent (t : Q) : Q := - (1) * lh_slope * (t - kelvin) + lh_water.
(** wet_bulb_temperature.py:95-111, 144-145, 173-175. *)
Definition specific_heat (q : Q) : Q := (- (1) * q + 1) * cp_dry + q * cp_vapour.
Definition enthalpy (q c l t : Q) : Q := l * q + c * t.
Definition gradient (q c l t : Q) : Q := q * l * l / (r_vapour * t * t) + c.

(** NumPy indexing with a list of booleans, with a list of indices, and a[idx] += v for distinct indices. *)
Fixpoint select {A} (mask : list bool) (l : list A) : list A := match mask, l with b :: m, a :: r => if b then a :: select m r else select m r | _, _ => [] end.
Definition take {A} (d : A) (l : list A) (idx : list nat) : list A := map (fun i => nth i l d) idx.
Fixpoint add_at (l : list Q) (i : nat) (v : Q) : list Q := match l, i with [], _ => [] | a :: r, O => (a + v) :: r | a :: r, S k => a :: add_at r k v end.
Fixpoint add_all (l : list Q) (idx : list nat) (vs : list Q) : list Q := match idx, vs with i :: idx', v :: vs' => add_all (add_at l i v) idx' vs' | _, _ => l end.
Fixpoint map2 {A B C} (f : A -> B -> C) (l : list A) (m : list B) : list C := match l, m with a :: l', b :: m' => f a b :: map2 f l' m' | _, _ => [] end.

(** One entry of the calculation: lines 226-234. *)
Definition delta (sat : Q -> Q -> Q) (t p c l e : Q) : Q := let q := sat t p in (e - enthalpy q c l t) / gradient q c l t.
Fixpoint deltas (sat : Q -> Q -> Q) (ts ps cs ls es : list Q) : list Q :=
  match ts, ps, cs, ls, es with t :: ts', p :: ps', c :: cs', l :: ls', e :: es' => delta sat t p c l e :: deltas sat ts' ps' cs' ls' es' | _, _, _, _, _ => [] end.

(** lines 213-243: the loop. [first]: iteration = 0, when nothing is selected; afterwards [mask] is update_to_update. [fuel]: iterations left of maximum_iterations. *)
Fixpoint loop (sat : Q -> Q -> Q) (precision : Q) (fuel : nat) (first : bool) (wbt : list Q) (idx : list nat) (mask : list bool) (ps cs ls es : list Q) : list Q :=
  match fuel with
  | O => wbt
  | S fuel' =>
    if (length idx =? 0)%nat then wbt else
    let ts := if first then wbt else take 0 wbt idx in
    let ps := if first then ps else select mask ps in
    let cs := if first then cs else select mask cs in
    let ls := if first then ls else select mask ls in
    let es := if first then es else select mask es in
    let ds := deltas sat ts ps cs ls es in
    let mask' := map (fun d => Qltb precision (Qabs d)) ds in
    let idx' := select mask' idx in
    loop sat precision fuel' false (add_all wbt idx' (select mask' ds)) idx' mask' ps cs ls es
  end.
Definition maximum_iterations : nat := 20.
(** lines 177-243. *)
Definition wet_bulb (sat : Q -> Q -> Q) (precision : Q) (pressure humidity temperature : list Q) : list Q :=
  let ls := map latent temperature in
  let qs := map2 Qmult humidity (map2 sat temperature pressure) in
  let cs := map specific_heat qs in
  let es := map2 (fun qc t => enthalpy (fst qc) (snd qc) (latent t) t) (combine qs cs) temperature in
  loop sat precision maximum_iterations true temperature (seq 0 (length temperature)) [] pressure cs ls es.

(** lines 62-93 and 306-319: a cube by its levels, from the ground up ([None]: no vertical coordinate with a dimension); [lname] the name of that coordinate.
    A cube without any vertical coordinate makes all three one slice (lines 73-77): [plain]. *)
Record profile := { lname : string; lvalues : list Q; fields : list (list Q) }.
Inductive column := Plain (f : list Q) | Scalar (f : list Q) | Levels (p : profile).
Definition dim_name (c : column) : list string := match c with Levels p => [lname p] | _ => [] end.
Definition has_vertical (c : column) : bool := match c with Plain _ => false | _ => true end.
Definition levels_of (c : column) : list (list Q) := match c with Levels p => fields p | Scalar f | Plain f => [f] end.
Fixpoint zip3 {A} (a b c : list A) : list (A * A * A) := match a, b, c with x :: a', y :: b', z :: c' => (x, y, z) :: zip3 a' b' c' | _, _, _ => [] end.
Definition slice_inputs (t r p : column) : result (list (list Q * list Q * list Q)) :=
  let names := if has_vertical t && has_vertical r && has_vertical p then dim_name t ++ dim_name r ++ dim_name p else [] in
  match names with
  | [] => Ok [(concat (levels_of t), concat (levels_of r), concat (levels_of p))]
  | [a; b; c] => if (String.eqb a b && String.eqb b c)%bool then Ok (zip3 (levels_of t) (levels_of r) (levels_of p)) else Err ValueError
  | _ => Err ValueError
  end.
(** lines 308-317: the result by levels, with the temperature's level values. *)
Definition wet_bulb_levels (sat : Q -> Q -> Q) (precision : Q) (t r p : column) : result (list (list Q)) :=
  let* ss := slice_inputs t r p in Ok (map (fun s => wet_bulb sat precision (snd s) (snd (fst s)) (fst (fst s))) ss).
