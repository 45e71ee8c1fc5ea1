(** Model of improver/categorical/modal_code.py (ModalCategory) at one grid point: the codes of the successive times. Cube merging,
    cell methods and metadata are not modelled; masked codes neither. *)
From Verif Require Import Base Model_Threshold Spec_Tree Model_Tree Model_Temporal.
Local Open Scope Z_scope.

(** scipy.stats.mode of a vector: the most frequent value, the smallest of equally frequent ones, with its count. *)
Definition zcount (z : Z) (l : list Z) : nat := count_occ Z.eq_dec l z.
Definition best_of (l : list Z) (b : Z * nat) (z : Z) : Z * nat := if Nat.ltb (snd b) (zcount z l) then (z, zcount z l) else b.
Definition stats_mode (l : list Z) : Z * nat := fold_left (best_of l) (zsortu l) (0, 0%nat).

(** modal_code.py:81-88 [__init__]: code_max and unset_code_indicator. *)
Definition leaf_codes (t : tree) : list Z :=
  flat_map (fun kq : string * query => match snd kq with Leaf c _ _ => [c] | Node _ => [] end) t.
Definition zmaxl (x : Z) (l : list Z) := fold_left Z.max l x.
Definition zminl (x : Z) (l : list Z) := fold_left Z.min l x.
Record modal := { mo_max : Z; mo_unset : Z; mo_night : list (Z * Z); mo_groups : list (list Z) }.

(** modal_code.py:102-109 [_code_groups]: a dictionary from group names to codes, in order of first appearance. *)
Fixpoint group_add (g : string) (c : Z) (d : list (string * list Z)) : list (string * list Z) :=
  match d with
  | [] => [(g, [c])]
  | (g', cs) :: r => if String.eqb g g' then (g', (cs ++ [c])%list) :: r else (g', cs) :: group_add g c r
  end.
Definition code_groups (t : tree) : list (string * list Z) :=
  fold_left (fun d (kq : string * query) => match snd kq with Leaf c _ (Some g) => group_add g c d | _ => d end) t [].
Definition modal_init (t : tree) : result modal :=
  let* dn := day_night_map t in
  match leaf_codes t with
  | [] => Err ValueError
  | c :: r => Ok {| mo_max := zmaxl c r + 1; mo_unset := zminl c r - 100; mo_night := dn; mo_groups := map snd (code_groups t) |}
  end.

(** modal_code.py:90-100 [_unify_day_and_night]. *)
Definition unify (dn : list (Z * Z)) (data : list Z) : list Z :=
  fold_left (fun d (kv : Z * Z) => map (fun c => if c =? snd kv then fst kv else c) d) dn data.

(** modal_code.py:142-169 [mode_aggregator]. *)
Definition mode_aggregator (p : modal) (data : list Z) : Z :=
  let '(m, count) := stats_mode (map (fun c => mo_max p - c) data) in
  if (10 * Z.of_nat count <? 3 * Z.of_nat (length data)) then mo_max p - (mo_max p - mo_unset p) else mo_max p - m.

(** modal_code.py:111-140 [_group_codes] at an undecided point. *)
Definition memz (z : Z) (l : list Z) : bool := existsb (Z.eqb z) l.
Definition group_one (data codes : list Z) : list Z :=
  match isort Z.leb (filter (fun c => memz c codes) data) with
  | [] => data
  | low :: _ => map (fun c => if memz c codes then low else c) data
  end.
Definition group_codes (p : modal) (data : list Z) : Z :=
  mo_max p - fst (stats_mode (map (fun c => mo_max p - c) (fold_left group_one (mo_groups p) data))).

(** modal_code.py:194-263 [process]. *)
Definition modal_process (p : modal) (data : list Z) : Z :=
  let data := unify (mo_night p) data in
  match data with
  | [c] => c
  | _ => let r := mode_aggregator p data in if r =? mo_unset p then group_codes p data else r
  end.
