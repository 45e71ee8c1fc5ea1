(** Model of improver/percentile.py (PercentileConverter), of the choice of method in improver/cli/generate_percentiles.py, and of what it uses of iris, numpy and scipy:
    iris.analysis.PERCENTILE collapses the dimensions of the coordinates and takes each percentile of the values collapsed, with numpy.percentile (linear interpolation) or scipy.stats.mstats.mquantiles (alphap = betap = 1).
    Values are exact rationals, None for masked; float32 rounding is not modelled. Requested percentiles increase strictly and there is at least one (iris merges the fields by percentile). Coordinates left over other than their names, cell methods and attributes are not modelled. *)
From Verif Require Import Base Model_Probability.
Local Open Scope Q_scope.

(** numpy.percentile of one group of values. *)
Definition np_percentile (l : list Q) (p : Q) : Q :=
  let s := qsort l in
  let h := p / 100 * inject_Z (Z.of_nat (length l) - 1) in
  let k := Z.to_nat (Qround.Qfloor h) in
  let below := nth (Nat.min k (length l - 1)) s 0 in
  let above := nth (Nat.min (S k) (length l - 1)) s 0 in
  below + (above - below) * (h - inject_Z (Z.of_nat k)).
(** scipy.stats.mstats.mquantiles with alphap = betap = 1, of the values that are not masked; masked if there are none. *)
Definition unmasked (l : list (option Q)) : list Q := flat_map (fun v : option Q => match v with Some x => [x] | None => [] end) l.
Definition mquantile (l : list (option Q)) (p : Q) : option Q :=
  match unmasked l with
  | [] => None
  | [x] => Some x
  | v => let s := qsort v in
         let n := inject_Z (Z.of_nat (length v)) in
         let q := p / 100 in
         let aleph := n * q + (1 - q) in
         let k := Qround.Qfloor (clip 1 (n - 1) aleph) in
         let gamma := clip 0 1 (aleph - inject_Z k) in
         Some ((1 - gamma) * nth (Z.to_nat (k - 1)) s 0 + gamma * nth (Z.to_nat k) s 0)
  end.

(** A cube: the sizes of its dimensions, its coordinates with the dimensions they are on, its values. *)
Record cube := { sizes : list nat; coords : list (string * list nat); vals : list nat -> option Q }.
Fixpoint tuples (l : list nat) : list (list nat) :=
  match l with [] => [[]] | n :: r => flat_map (fun i => map (cons i) (tuples r)) (seq 0 n) end.
(** Of the positions of the dimensions, those that satisfy [f]; and an index put together from those of the dimensions kept and collapsed. *)
Fixpoint select {A} (fl : list bool) (l : list A) : list A :=
  match fl, l with b :: fr, a :: r => if b then a :: select fr r else select fr r | _, _ => [] end.
Fixpoint weave (fl : list bool) (outer inner : list nat) : list nat :=
  match fl with
  | [] => []
  | true :: r => match inner with i :: t => i :: weave r outer t | [] => [] end
  | false :: r => match outer with i :: t => i :: weave r t inner | [] => [] end
  end.
Definition with_name (n : string) (c : cube) : list (string * list nat) := filter (fun x => (fst x =? n)%string) (coords c).
Definition collapsing (names : list string) (c : cube) : list bool :=
  map (fun d => existsb (fun x => (existsb (String.eqb (fst x)) names && existsb (Nat.eqb d) (snd x))%bool) (coords c)) (seq 0 (length (sizes c))).
Definition masked (c : cube) : bool := existsb (fun i => match vals c i with None => true | Some _ => false end) (tuples (sizes c)).

(** The result: the percentiles, the sizes of the dimensions left, and the values by percentile and index. *)
Record pcube := { percentiles : list Q; left_sizes : list nat; pvals : Q -> list nat -> option Q }.
(** percentile.py:34-69: the defaults. *)
Definition default_percentiles : list Q := [0; 5; 10; 20; 25; 30; 40; 50; 60; 70; 75; 80; 90; 95; 100].
(** percentile.py:78-129. The number of names equal to names of coordinates, counted in pairs, has to be the number of names asked for (98-108). iris' [collapsed] looks each up, refuses coordinates that are on no dimension (its CoordinateCollapseError is given as RuntimeError), and, with numpy's method, masked data (TypeError) and percentiles outside 0 to 100 (ValueError).
    Removing the coordinates (118-119) fails at a name given twice; the new coordinate has to be the only one whose name contains "percentile" (120). *)
Definition convert (names : list string) (asked : option (list Q)) (fast : bool) (c : cube) : result pcube :=
  let ps := match asked with Some l => l | None => default_percentiles end in
  let matches := list_sum (map (fun x => length (filter (String.eqb (fst x)) names)) (coords c)) in
  if negb (matches =? length names)%nat then Err CoordinateNotFoundError else
  if existsb (fun n => negb (length (with_name n c) =? 1)%nat) names then Err CoordinateNotFoundError else
  let fl := collapsing names c in
  if negb (existsb (fun b => b) fl) then Err RuntimeError else
  if (fast && masked c)%bool then Err TypeError else
  if (fast && existsb (fun p => ((p <? 0) || (100 <? p))%bool) ps)%bool then Err ValueError else
  if existsb (fun n => negb (length (filter (String.eqb n) names) =? 1)%nat) names then Err CoordinateNotFoundError else
  if existsb (fun x => (negb (existsb (String.eqb (fst x)) names) && contains "percentile" (fst x))%bool) (coords c) then Err ValueError else
  Ok {| percentiles := ps; left_sizes := select (map negb fl) (sizes c);
        pvals := fun p outer =>
          let group := map (fun inner => vals c (weave fl outer inner)) (tuples (select fl (sizes c))) in
          if fast then Some (np_percentile (unmasked group) p) else mquantile group p |}.
(** cli/generate_percentiles.py:132-150: numpy's method unless there are masked values. *)
Definition generate (names : list string) (asked : option (list Q)) (c : cube) : result pcube := convert names asked (negb (masked c)) c.
