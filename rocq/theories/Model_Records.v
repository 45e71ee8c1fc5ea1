(** Model of improver/blending/utilities.py:224-433: the record_run attribute of blends (store_record_run_as_coord, record_run_coord_to_attr, update_record_run_weights), as text.
    Weights are exact rationals, not negative; a cycle is given as its text (strftime with DT_FORMAT, line 299). *)
From Coq Require Import Ascii String Decimal DecimalString.
From Verif Require Import Base Model_Percentiles.
Local Open Scope string_scope.

Definition newline : ascii := "010"%char.
Definition nl : string := String newline "".
(** Python's s.split(c) for one character, and s.rsplit(":", 1) ([None]: no colon, a list of one). *)
Fixpoint split_on (c : ascii) (s : string) : list string :=
  match s with
  | "" => [""]
  | String a r => if Ascii.eqb a c then "" :: split_on c r else match split_on c r with w :: ws => String a w :: ws | [] => [String a ""] end
  end.
Fixpoint rsplit1 (s : string) : option (string * string) :=
  match s with
  | "" => None
  | String a r => match rsplit1 r with Some (x, y) => Some (String a x, y) | None => if Ascii.eqb a ":"%char then Some ("", r) else None end
  end.

(** WEIGHT_FORMAT = "1.3f" (blending/__init__.py:9) of a weight that is not negative: the nearest thousandth, half to even, with three decimals. *)
Definition digit (n : nat) : ascii := ascii_of_nat (48 + n mod 10).
Definition thousandths (n : nat) : string := NilEmpty.string_of_uint (Nat.to_uint (n / 1000)) ++ String "."%char (String (digit (n / 100)) (String (digit (n / 10)) (String (digit n) ""))).
Definition to_thousandths (q : Q) : nat := Z.to_nat (round_half_even (q * 1000)).
Definition weight_text (q : Q) : string := thousandths (to_thousandths q).
(** float(text): digits with at most one point; other forms (signs, exponents, names, spaces) are taken as not a number. *)
Definition digit_of (c : ascii) : option nat := let n := nat_of_ascii c in if ((48 <=? n)%nat && (n <=? 57)%nat)%bool then Some (n - 48)%nat else None.
Fixpoint digits (acc : nat) (s : string) : option nat := match s with "" => Some acc | String c r => match digit_of c with Some d => digits (10 * acc + d) r | None => None end end.
Definition number (s : string) : option Q :=
  match split_on "."%char s with
  | [a] => if String.eqb a "" then None else option_map (fun n => inject_Z (Z.of_nat n)) (digits 0 a)
  | [a; b] => if (String.eqb a "" && String.eqb b "")%bool then None else
      match digits 0 a, digits 0 b with Some x, Some y => Some (inject_Z (Z.of_nat x) + inject_Z (Z.of_nat y) / inject_Z (10 ^ Z.of_nat (String.length b)))%Q | _, _ => None end
  | _ => None
  end.

(** lines 224-315. A cube: its record_run attribute if it has one, its model identifier if it has one, its cycle. *)
Record member := { m_record : option string; m_model : option string; m_cycle : string }.
Definition store_one (m : member) : result string :=
  match m_record m with Some r => Ok r | None => match m_model m with None => Err RuntimeError | Some id => Ok (id ++ ":" ++ m_cycle m ++ ":" ++ weight_text 1) end end.
Definition store_records (model_id_attr_given : bool) (cubes : list member) : result (list string) :=
  if (negb model_id_attr_given && negb (forallb (fun m => match m_record m with Some _ => true | None => false end) cubes))%bool then Err ValueError else mapM store_one cubes.

(** lines 318-361: [points] are the records on the cubes. *)
Definition records_to_attr (discard_weights : bool) (points : list string) : string :=
  if discard_weights then String.concat nl (isort String.leb (nodup string_dec (map (fun p => match rsplit1 p with Some (x, _) => x | None => p end ++ ":") (flat_map (split_on newline) points))))
  else String.concat nl (isort String.leb points).

(** lines 408-430. *)
Definition update_line (w : Q) (line : string) : result string :=
  let (mc, t) := match rsplit1 line with Some p => p | None => (line, line) end in
  match number t with None => Err ValueError | Some v => Ok (mc ++ ":" ++ weight_text (v * w)%Q) end.
Definition update_record (w : Q) (text : string) : result string := let* ls := mapM (update_line w) (split_on newline text) in Ok (String.concat nl (isort String.leb ls)).
(** lines 364-433: slices (point of the blend coordinate, record) in their order; the weight is that of the same point (none: None has no data, AttributeError). *)
Definition update_weights (weights : list (Q * Q)) (slices : list (Q * string)) : result (list (Q * string)) :=
  mapM (fun s => match find (fun e => Qeq_bool (fst e) (fst s)) weights with None => Err AttributeError | Some e => let* t := update_record (snd e) (snd s) in Ok (fst s, t) end) slices.
