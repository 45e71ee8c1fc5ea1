(** What it is for two files to agree (C110), independently of how they are compared. *)
From Coq Require Import String.
From Verif Require Import Base Model_Compare.
Local Open Scope string_scope.

(** Two dictionaries, as far as keys outside [skip] go: the same keys, and under each key related values. *)
Definition agree_on {A B} (R : string -> A -> B -> Prop) (skip : list string) (a : list (string * A)) (d : list (string * B)) : Prop :=
  forall k, ~ In k skip -> ((exists v, In (k, v) a) <-> (exists w, In (k, w) d)) /\ forall v w, In (k, v) a -> In (k, w) d -> R k v w.
(** Numbers that are equal (NaN is not equal to itself). *)
Inductive equal_numbers : number -> number -> Prop :=
| eq_finite x y : (x == y)%Q -> equal_numbers (Finite x) (Finite y) | eq_plus : equal_numbers PlusInf PlusInf | eq_minus : equal_numbers MinusInf MinusInf.
Inductive equal_attributes : attribute -> attribute -> Prop :=
| eq_text s : equal_attributes (AText s) (AText s)
| eq_number t x y : equal_numbers x y -> equal_attributes (ANumber t x) (ANumber t y)
| eq_array t u l m : Forall2 equal_numbers l m -> equal_attributes (AArray t l) (AArray u m)
| eq_texts l : equal_attributes (ATexts l) (ATexts l).
(** Numbers that are close, the desired one setting the scale; special values are close to themselves only. *)
Inductive near (rtol atol : Q) : number -> number -> Prop :=
| near_finite x y : (Qabs (x - y) <= atol + rtol * Qabs y)%Q -> near rtol atol (Finite x) (Finite y)
| near_nan : near rtol atol NaN NaN | near_plus : near rtol atol PlusInf PlusInf | near_minus : near rtol atol MinusInf MinusInf.
(** Arrays of the same shape with related values, or a scalar related to every value of the other. *)
Inductive arrays {A} (R : A -> A -> Prop) : list nat -> list nat -> list A -> list A -> Prop :=
| same_shape s l m : s <> [] -> Forall2 R l m -> arrays R s s l m
| scalar_left t x m : Forall (R x) m -> arrays R [] t [x] m
| scalar_right s l y : s <> [] -> Forall (fun x => R x y) l -> arrays R s [] l [y].
Inductive agreeing_data (rtol atol : Q) : variable -> variable -> Prop :=
| agree_numbers a d l m : va_data a = Numbers l -> va_data d = Numbers m -> arrays (near rtol atol) (va_shape a) (va_shape d) l m -> agreeing_data rtol atol a d
| agree_others a d l m : va_data a = Others l -> va_data d = Others m -> arrays eq (va_shape a) (va_shape d) l m -> agreeing_data rtol atol a d.
Definition agreeing_variables (rtol atol : Q) (ignored : list string) (a d : variable) : Prop :=
  va_dtype a = va_dtype d /\ agree_on (fun _ => equal_attributes) ignored (va_attrs a) (va_attrs d) /\ agreeing_data rtol atol a d.
(** A compared variable (in both files and not excluded); one that is a coordinate: a compared variable of the desired file has a dimension of its name. *)
Definition compared (excluded : list string) (a d : list (string * variable)) (k : string) : Prop := ~ In k excluded /\ (exists v, In (k, v) a) /\ exists w, In (k, w) d.
Definition coordinate (excluded : list string) (a d : list (string * variable)) (k : string) : Prop := compared excluded a d k /\ exists j w, compared excluded a d j /\ In (j, w) d /\ In k (va_dims w).
Inductive agrees (rtol atol : Q) (excluded ignored : list string) : dataset -> dataset -> Prop :=
| agrees_group aa ad av ag da dd dv dg :
    agree_on (fun _ => equal_attributes) ignored aa da ->
    agree_on (fun _ n m => n = m) excluded ad dd ->
    agree_on (fun k v w => (coordinate excluded av dv k -> agreeing_variables 0 0 ignored v w) /\ (~ coordinate excluded av dv k -> agreeing_variables rtol atol ignored v w)) excluded av dv ->
    agree_on (fun _ g h => agrees rtol atol excluded ignored g h) [] ag dg ->
    agrees rtol atol excluded ignored (Group aa ad av ag) (Group da dd dv dg).

(** A file: names are not repeated, a scalar variable holds one value. *)
Definition dictionary {A} (l : list (string * A)) : Prop := NoDup (map fst l).
Definition count (c : contents) : nat := match c with Numbers l => length l | Others l => length l end.
Definition good_variable (v : variable) : Prop := dictionary (va_attrs v) /\ (va_shape v = [] -> count (va_data v) = 1%nat).
Inductive good : dataset -> Prop :=
| good_group a d v g : dictionary a -> dictionary d -> dictionary v -> dictionary g -> (forall k x, In (k, x) v -> good_variable x) -> (forall k x, In (k, x) g -> good x) -> good (Group a d v g).
(** No attribute is, or contains, NaN. *)
Definition number_attr (a : attribute) : Prop := match a with ANumber _ x => x <> NaN | AArray _ l => ~ In NaN l | _ => True end.
Inductive without_nan_attributes : dataset -> Prop :=
| wna a d v g : (forall k x, In (k, x) a -> number_attr x) -> (forall k x, In (k, x) v -> forall j y, In (j, y) (va_attrs x) -> number_attr y) -> (forall k x, In (k, x) g -> without_nan_attributes x) -> without_nan_attributes (Group a d v g).
