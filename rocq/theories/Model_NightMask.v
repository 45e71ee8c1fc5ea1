(** Model of improver/cli/apply_night_mask.py with the shape of the mask that improver/utilities/solar.py (DayNightMask, lines 270-319 and 358-414) makes for it.
    [night] says where and when it is night (Model_Solar), by time, row and column of the cube's own coordinates; a spot forecast is a cube of one spatial dimension.  [c_vals] is what is stored at an index, [c_masked] whether it is masked there. *)
From Verif Require Import Base.
Local Open Scope string_scope.
Local Open Scope list_scope.
Local Open Scope Q_scope.

Record cube := { c_name : string; c_probability : bool; c_dims : list (string * nat); c_vals : list nat -> Q; c_masked : list nat -> bool }.
Definition size_of (dims : list (string * nat)) (k : string) : option nat := option_map snd (find (fun d => String.eqb (fst d) k) dims).
(** [k] is where the mask has its dimensions: lines 284-299 give time first if it is a dimension, then y and x (spot_index for sites); the mask is made of slices at one time each and merged (line 414), which takes a single time off the dimensions. *)
Definition mask_dims (dims : list (string * nat)) : list (string * nat) :=
  let time := match size_of dims "time" with Some n => if (n =? 1)%nat then [] else [("time", n)] | None => [] end in
  match size_of dims "spot_index" with
  | Some n => time ++ [("spot_index", n)]
  | None => time ++ match size_of dims "y" with Some n => [("y", n)] | None => [] end ++ match size_of dims "x" with Some n => [("x", n)] | None => [] end
  end.
(** numpy.broadcast_to: the last dimensions are put together; those of one point are repeated. *)
Fixpoint fits (m s : list nat) : bool := match m, s with [], _ => true | a :: m, b :: s => (((a =? b) || (a =? 1))%nat && fits m s)%bool | _ :: _, [] => false end.
Definition broadcastable (m s : list nat) : bool := fits (rev m) (rev s).
Definition at_mask (m : list nat) (idx : list nat) : list nat := map (fun p => if (fst p =? 1)%nat then 0%nat else snd p) (combine m (skipn (length idx - length m) idx)).
(** The value of the mask at an index of its own dimensions: [night] takes an index by the name of the dimension (0 for those that the mask has not). *)
Definition position (dims : list (string * nat)) (idx : list nat) (k : string) : nat := match find (fun p => String.eqb (fst (fst p)) k) (combine dims idx) with Some p => snd p | None => 0%nat end.
(** cli/apply_night_mask.py lines 37-46; numpy.where looks at the values stored and gives an array without a mask. *)
Definition contains_above (s : string) : bool := match index 0 "above_threshold" s with Some _ => true | None => false end.
Definition apply_night_mask (night : (string -> nat) -> bool) (c : cube) : result cube :=
  if (c_probability c && negb (contains_above (c_name c)))%bool then Err ValueError else
  let m := mask_dims (c_dims c) in
  if negb (broadcastable (map snd m) (map snd (c_dims c))) then Err ValueError else
  Ok {| c_name := c_name c; c_probability := c_probability c; c_dims := c_dims c;
        c_vals := fun idx => if night (position m (at_mask (map snd m) idx)) then 0 else c_vals c idx; c_masked := fun _ => false |}.
