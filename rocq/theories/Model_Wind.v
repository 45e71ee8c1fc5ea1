(** Model of improver/wind_calculations/wind_direction.py, of improver/utilities/complex_conversion.py and of
    ResolveWindComponents.resolve_wind_components.  Angles and lengths are real numbers (float32 arithmetic is not
    modelled); a complex number is the pair of its parts. *)
From Coq Require Import Reals ZArith List.
From Verif Require Import Base.
Import ListNotations.
Local Open Scope R_scope.

(** complex_conversion.py lines 11-35 (deg_to_complex). *)
Definition radians (d : R) : R := d * (PI / 180).
Definition degrees (a : R) : R := a * (180 / PI).
Definition deg_to_complex (d radius : R) : R * R := (radius * cos (radians d), radius * sin (radians d)).
(** numpy's angle: 0 for 0, otherwise the argument, above -pi and up to pi. *)
Definition modulus (z : R * R) : R := sqrt (Rsqr (fst z) + Rsqr (snd z)).
Definition argument (z : R * R) : R :=
  if Req_EM_T (modulus z) 0 then 0 else if Rle_dec 0 (snd z) then acos (fst z / modulus z) else - acos (fst z / modulus z).
(** numpy's mod with a positive modulus. *)
Definition mod360 (x : R) : R := x - 360 * IZR (Int_part (x / 360)).
(** lines 38-68 (complex_to_deg). *)
Definition complex_to_deg (z : R * R) : R := mod360 (degrees (argument z)).

Fixpoint rsum (l : list R) : R := match l with [] => 0 | x :: r => x + rsum r end.
Definition cmean (l : list (R * R)) : R * R := (rsum (map fst l) / INR (length l), rsum (map snd l) / INR (length l)).

(** wind_direction.py: one slice, its members with their realization numbers and the direction of each at each point. *)
Inductive backup := FirstRealization | Neighbourhood.
Definition members := list (Z * (nat -> R)).
Definition mean_vector (ms : members) (p : nat) : R * R := cmean (map (fun m => deg_to_complex (snd m p) 1) ms).
(** lines 127-150 and 264: the radius is below 0.01. *)
Definition is_low (z : R * R) : bool := if Rlt_dec (modulus z) (1 / 100) then true else false.
(** lines 105-211 and 246-268: the slice.  [smooth] is the neighbourhood processing (6 km square) of a field of complex
    numbers; [n] is the number of points. *)
Definition slice_mean (b : backup) (smooth : (nat -> R * R) -> nat -> R * R) (n : nat) (ms : members) : result (nat -> R) :=
  if existsb (fun p => is_low (mean_vector ms p)) (seq 0 n) then
    match b with
    | Neighbourhood => Ok (fun p => if is_low (mean_vector ms p) then complex_to_deg (cmean (map (fun m => smooth (fun q => deg_to_complex (snd m q) 1) p) ms)) else complex_to_deg (mean_vector ms p))
    | FirstRealization => match find (fun m => (fst m =? 0)%Z) ms with
        | Some m0 => Ok (fun p => if is_low (mean_vector ms p) then snd m0 p else complex_to_deg (mean_vector ms p))
        | None => Err AttributeError end
    end
  else Ok (fun p => complex_to_deg (mean_vector ms p)).
(** lines 213-283 (process).  A cube is a list of slices with their times; [dim]: the time is a dimension of the cube.
    The instance keeps the means of the slices of every earlier call (line 271); all of them are merged (line 274), which
    fails if a time occurs twice, and the dimensions must be those of the input (line 279).  First component: what the
    instance keeps afterwards.  Other coordinates than one leading one are not modelled. *)
Definition kept := list (Z * (nat -> R)).
Fixpoint run_slices (b : backup) (smooth : (nat -> R * R) -> nat -> R * R) (n : nat) (old : kept) (slices : list (Z * members)) : kept * option err :=
  match slices with
  | [] => (old, None)
  | s :: r => match slice_mean b smooth n (snd s) with Ok f => run_slices b smooth n (old ++ [(fst s, f)]) r | Err e => (old, Some e) end
  end.
Fixpoint distinct_z (l : list Z) : bool := match l with [] => true | x :: r => (negb (existsb (Z.eqb x) r) && distinct_z r)%bool end.
Fixpoint insert_slice (s : Z * (nat -> R)) (l : kept) : kept := match l with [] => [s] | t :: r => if (fst s <=? fst t)%Z then s :: l else t :: insert_slice s r end.
Definition merge_slices (l : kept) : result kept := if distinct_z (map fst l) then Ok (fold_right insert_slice [] l) else Err MergeError.
Definition wind_direction (b : backup) (smooth : (nat -> R * R) -> nat -> R * R) (n : nat) (dim : bool) (old : kept) (slices : list (Z * members)) : kept * result kept :=
  match run_slices b smooth n old slices with
  | (k, Some e) => (k, Err e)
  | (k, None) => (k, let* m := merge_slices k in if (negb dim && negb (length m =? 1)%nat)%bool then Err CoordinateNotFoundError else Ok m)
  end.

(** wind_components.py lines 117-151 (resolve_wind_components), at one point.  [a] is the direction of the wind in
    radians as the cube of directions holds it, [adj] the angle of true north, [from_] whether the name of the cube
    contains "wind_from_direction".  Second component: what the cube of directions holds afterwards (line 142 and 146
    change it in place). *)
Definition resolve (speed a adj : R) (from_ : bool) : (R * R) * R :=
  let a' := a + adj + (if from_ then PI else 0) in ((speed * sin a', speed * cos a'), a').
