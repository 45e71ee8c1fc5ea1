(** Model of improver/utilities/compare.py (compare_netcdfs, the command improver compare).  A file is a tree of groups.
    The messages are modelled by their kind and name; the order of messages follows the actual file (the code goes
    through sets, in no particular order). *)
From Coq Require Import String.
From Verif Require Import Base.
Local Open Scope string_scope.

(** A number in a file, with the special values of floating point. *)
Inductive number := Finite (q : Q) | NaN | PlusInf | MinusInf.
(** An attribute as netCDF4's getncattr gives it: text, one number (of a numpy type), an array of them, a list of text. *)
Inductive attribute := AText (s : string) | ANumber (dtype : string) (x : number) | AArray (dtype : string) (l : list number) | ATexts (l : list string).
(** The raw data of a variable (set_auto_maskandscale(False), lines 78-79): numbers, or text and other kinds compared exactly. *)
Inductive contents := Numbers (l : list number) | Others (l : list string).
Record variable := { va_dtype : string; va_dims : list string; va_shape : list nat; va_data : contents; va_attrs : list (string * attribute) }.
Inductive dataset := Group (attrs : list (string * attribute)) (dims : list (string * nat)) (vars : list (string * variable)) (groups : list (string * dataset)).

Inductive message := MAttributes (where_ : string) | MAttrType (where_ key : string) | MAttrValue (where_ key : string) | MGroups (where_ : string) | MDims (where_ : string) | MDimSize (where_ dim : string)
  | MVars (where_ : string) | MType (where_ : string) | MData (where_ : string) | MOpen.

Definition lookup {A} (k : string) (l : list (string * A)) : option A := option_map snd (find (fun e => String.eqb (fst e) k) l).
Definition mem (k : string) (l : list string) : bool := existsb (String.eqb k) l.
(** set(a) != set(b) after discarding. *)
Definition same_set (a b : list string) : bool := (forallb (fun k => mem k b) a && forallb (fun k => mem k a) b)%bool.
Definition kept (skip : list string) (l : list string) : list string := filter (fun k => negb (mem k skip)) l.

(** IEEE comparison. *)
Definition same_number (a b : number) : bool := match a, b with Finite x, Finite y => Qeq_bool x y | PlusInf, PlusInf | MinusInf, MinusInf => true | _, _ => false end.
Fixpoint all2 {A B} (f : A -> B -> bool) (l : list A) (m : list B) : bool := match l, m with [], [] => true | a :: l, b :: m => (f a b && all2 f l m)%bool | _, _ => false end.
(** lines 307-329: isinstance(desired, type(actual)); numpy's scalar types are unrelated, arrays and lists do not tell their types. *)
Definition same_type (a d : attribute) : bool :=
  match a, d with AText _, AText _ | AArray _ _, AArray _ _ | ATexts _, ATexts _ => true | ANumber t _, ANumber u _ => String.eqb t u | _, _ => false end.
(** Values of different kinds count as different; for an array against a number numpy may raise instead, after the message about the type. *)
Definition same_value (a d : attribute) : bool :=
  match a, d with
  | AText s, AText t => String.eqb s t
  | ANumber _ x, ANumber _ y => same_number x y
  | AArray _ l, AArray _ m => all2 same_number l m
  | ATexts l, ATexts m => all2 String.eqb l m
  | _, _ => false
  end.
Definition compare_attributes (name : string) (ignored : list string) (a d : list (string * attribute)) : list message :=
  ((if same_set (kept ignored (map fst a)) (kept ignored (map fst d)) then [] else [MAttributes name]) ++
   flat_map (fun e => if mem (fst e) ignored then [] else match lookup (fst e) d with None => [] | Some y =>
     (if same_type (snd e) y then [] else [MAttrType name (fst e)]) ++ (if same_value (snd e) y then [] else [MAttrValue name (fst e)]) end) a)%list.

(** lines 166-205. *)
Definition compare_dims (name : string) (excluded : list string) (a d : list (string * nat)) : list message :=
  ((if same_set (kept excluded (map fst a)) (kept excluded (map fst d)) then [] else [MDims name]) ++
   flat_map (fun e => if mem (fst e) excluded then [] else match lookup (fst e) d with None => [] | Some n => if Nat.eqb (snd e) n then [] else [MDimSize name (fst e)] end) a)%list.

(** numpy's isclose(actual, desired, rtol, atol, equal_nan=True). *)
Definition close (rtol atol : Q) (a d : number) : bool :=
  match a, d with Finite x, Finite y => Qle_bool (Qabs (x - y)) (atol + rtol * Qabs y) | NaN, NaN | PlusInf, PlusInf | MinusInf, MinusInf => true | _, _ => false end.
(** assert_allclose / assert_equal on arrays: shapes are the same or one of them is a scalar's. *)
Definition arrays_agree {A} (f : A -> A -> bool) (sa sd : list nat) (a d : list A) : bool :=
  match sa, sd with
  | [], _ => match a with [x] => forallb (f x) d | _ => false end
  | _, [] => match d with [y] => forallb (fun x => f x y) a | _ => false end
  | _, _ => (all2 Nat.eqb sa sd && all2 f a d)%bool
  end.
(** lines 332-379.  Numbers against text: the types differ (line 357), and counts as a difference. *)
Definition compare_data (name : string) (rtol atol : Q) (a d : variable) : list message :=
  ((if String.eqb (va_dtype a) (va_dtype d) then [] else [MType name]) ++
   (if match va_data a, va_data d with Numbers l, Numbers m => arrays_agree (close rtol atol) (va_shape a) (va_shape d) l m | Others l, Others m => arrays_agree String.eqb (va_shape a) (va_shape d) l m | _, _ => false end then [] else [MData name]))%list.
(** lines 208-266. *)
Definition coord_vars (excluded : list string) (a d : list (string * variable)) : list string :=
  let check := filter (fun k => mem k (kept excluded (map fst d))) (kept excluded (map fst a)) in
  filter (fun k => existsb (fun e => (mem (fst e) check && mem k (va_dims (snd e)))%bool) d) check.
Definition compare_vars (name : string) (rtol atol : Q) (excluded ignored : list string) (a d : list (string * variable)) : list message :=
  ((if same_set (kept excluded (map fst a)) (kept excluded (map fst d)) then [] else [MVars name]) ++
   flat_map (fun e => if mem (fst e) excluded then [] else match lookup (fst e) d with None => [] | Some y =>
     let path := String.append name (String.append "/" (fst e)) in
     compare_attributes path ignored (va_attrs (snd e)) (va_attrs y) ++
     (if mem (fst e) (coord_vars excluded a d) then compare_data path 0 0 (snd e) y else compare_data path rtol atol (snd e) y) end) a)%list.
(** lines 92-163. *)
Definition attrs_of (d : dataset) : list (string * attribute) := match d with Group a _ _ _ => a end.
Definition groups_of (d : dataset) : list (string * dataset) := match d with Group _ _ _ g => g end.
Fixpoint compare_datasets (name : string) (rtol atol : Q) (excluded ignored : list string) (a d : dataset) : list message :=
  match a, d with
  | Group aa ad av ag, Group da dd dv dg =>
      (compare_attributes "root" ignored aa da ++
       (if same_set (map fst ag) (map fst dg) then [] else [MGroups name]) ++
       flat_map (fun e => match lookup (fst e) dg with None => [] | Some y => compare_attributes (fst e) ignored (attrs_of (snd e)) (attrs_of y) ++ compare_datasets (fst e) rtol atol excluded ignored (snd e) y end) ag ++
       compare_dims name excluded ad dd ++ compare_vars name rtol atol excluded ignored av dv)%list
  end.
(** lines 31-89: a file that cannot be opened is a message. *)
Definition compare_netcdfs (rtol atol : Q) (excluded ignored : list string) (actual desired : option dataset) : list message :=
  match actual, desired with Some a, Some d => compare_datasets "" rtol atol excluded ignored a d | _, _ => [MOpen] end.
(** lines 60-66: without a reporter the first message is raised. *)
Definition compare_raising (rtol atol : Q) (excluded ignored : list string) (actual desired : option dataset) : result unit :=
  match compare_netcdfs rtol atol excluded ignored actual desired with [] => Ok tt | _ => Err ValueError end.
