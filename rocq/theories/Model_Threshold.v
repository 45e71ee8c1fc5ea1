(** Model of improver/utilities/probability_manipulation.py (operator table) and
    improver/threshold.py (class Threshold). *)
From Verif Require Export Base Model_Rescale.

(** probability_manipulation.py lines 25-56: the four inequalities. *)
Inductive cmp := GE | GT | LE | LT.

Definition cmp_fun (c : cmp) (x y : Q) : bool :=
  match c with GE => y <=? x | GT => y <? x | LE => x <=? y | LT => x <? y end.

Definition spp_string (c : cmp) : string :=
  match c with
  | GE => "greater_than_or_equal_to" | GT => "greater_than"
  | LE => "less_than_or_equal_to" | LT => "less_than"
  end.

(** keys of the dictionary, lines 28, 38, 44, 52. *)
Definition cmp_table : list (string * cmp) :=
  [("ge", GE); ("GE", GE); (">=", GE); ("gt", GT); ("GT", GT); (">", GT);
   ("le", LE); ("LE", LE); ("<=", LE); ("lt", LT); ("LT", LT); ("<", LT)]%string.

Fixpoint assoc {B} (k : string) (l : list (string * B)) : option B :=
  match l with
  | [] => None
  | (k', v) :: r => if String.eqb k k' then Some v else assoc k r
  end.

Definition cmp_lookup (k : string) : option cmp := assoc k cmp_table.

(** the "inverse" field, lines 32, 39, 46, 53. *)
Definition cmp_inverse_key (c : cmp) : string :=
  match c with GE => "lt" | GT => "le" | LE => "gt" | LT => "ge" end%string.

(** "less_than" in spp_string  (threshold.py line 413). *)
Definition is_less (c : cmp) : bool :=
  match String.index 0 "less_than" (spp_string c) with Some _ => true | None => false end.

(** * threshold.py: construction *)

(** threshold_values argument: absent, a bare number, or a list. *)
Inductive tvals := TVnone | TVscalar (q : Q) | TVlist (l : list Q).
(** threshold_config argument: one entry per key, "None" or a tuple of bounds. *)
Definition tconfig := list (Q * option (list Q)).

Definition tv_truthy (t : tvals) : bool :=
  match t with TVnone => false | TVscalar q => negb (q =? 0) | TVlist [] => false | TVlist _ => true end.

(** threshold.py lines 243-255: loop over the config; [b] is the local fuzzy_bounds.
    Appending to None raises AttributeError. *)
Fixpoint config_loop (cfg : tconfig) (ts : list Q) (b : option (list (list Q)))
  : result (list Q * option (list (list Q))) :=
  match cfg with
  | [] => Ok (ts, b)
  | (t, None) :: r => config_loop r (ts ++ [t]) None
  | (t, Some bs) :: r =>
      match b with
      | None => Err AttributeError
      | Some b' => config_loop r (ts ++ [t]) (Some (b' ++ [bs]))
      end
  end.

(** threshold.py lines 218-263 (_set_thresholds). *)
Definition set_thresholds (tv : tvals) (cfg : option tconfig) : result (list Q * option (list (list Q))) :=
  match cfg with
  | Some ((_ :: _) as c) => config_loop c [] (Some [])
  | _ => match tv with
         | TVnone => Err TypeError
         | TVscalar q => Ok ([q], None)
         | TVlist l => Ok (l, None)
         end
  end.

(** threshold.py lines 265-278 (_generate_fuzzy_bounds). *)
Definition gen_bounds (ff t : Q) : Q * Q :=
  let lo := t * ff in let hi := t * (2 - ff) in
  if t <? 0 then (hi, lo) else (lo, hi).

(** threshold.py lines 280-295 (_check_fuzzy_bounds), returning the checked pairs. *)
Fixpoint check_bounds (ts : list Q) (bs : list (list Q)) : result (list (Q * Q)) :=
  match ts, bs with
  | t :: ts, b :: bs =>
      match b with
      | [lo; hi] =>
          if (t <? lo) || (hi <? t) then Err ValueError
          else let* r := check_bounds ts bs in Ok ((lo, hi) :: r)
      | _ => Err ValueError
      end
  | _, _ => Ok []
  end.

Inductive collapse := Cnone | Cpercentile | Crealization | Cother (name : string).

Record threshold_plugin := {
  tp_thresholds : list Q;
  tp_bounds : list (Q * Q);
  tp_cmp : cmp;
  tp_collapse : collapse
}.

(** threshold.py lines 47-216 (__init__); units and vicinity are not modelled here. *)
Definition threshold_init (tv : tvals) (cfg : option tconfig) (ff : option Q) (op : string) (col : collapse)
  : result threshold_plugin :=
  if (match cfg with Some (_ :: _) => true | _ => false end) && tv_truthy tv then Err ValueError
  else match cfg, tv with
  | None, TVnone => Err ValueError
  | _, _ =>
    let* (ts, fb) := set_thresholds tv cfg in
    let* ffl :=
      match ff with
      | None => Ok 1
      | Some f =>
          if match fb with Some _ => true | None => false end then Err ValueError
          else if negb ((0 <? f) && (f <? 1)) then Err ValueError
          else if existsb (fun t => t =? 0) ts then Err ValueError
          else Ok f
      end in
    let* bounds :=
      match fb with
      | None => Ok (map (gen_bounds ffl) ts)
      | Some bs => check_bounds ts bs
      end in
    match cmp_lookup op with
    | None => Err ValueError
    | Some c =>
        match col with
        | Cother _ => Err ValueError
        | _ => Ok {| tp_thresholds := ts; tp_bounds := bounds; tp_cmp := c; tp_collapse := col |}
        end
    end
  end.

(** * threshold.py: truth values *)

(** threshold.py lines 362-416 (_calculate_truth_value) on the vector of data values. *)
Definition truth_values (c : cmp) (t : Q) (b : Q * Q) (data : list Q) : result (list Q) :=
  let (lo, hi) := b in
  if lo =? hi then Ok (map (fun x => if cmp_fun c x t then 1 else 0) data)
  else
    let* below := rescale data (Some (lo, t)) (0, 1 # 2) true in
    let* above := rescale data (Some (t, hi)) (1 # 2, 1) true in
    let tv := zipw (fun (d : Q) (ab : Q * Q) => if d <? t then fst ab else snd ab) data (combine below above) in
    Ok (if is_less c then map (fun v => 1 - v) tv else tv).

(** * threshold.py: process *)

(** One slice of the input: values, mask (True = masked), and whether an unmasked NaN occurs. *)
Record slice := { sl_data : list Q; sl_mask : list bool; sl_nan : bool }.

(** lines 611: contribution_total += unmasked *)
Definition add_contrib (tot : list nat) (s : slice) : list nat :=
  zipw (fun n (m : bool) => if m then n else S n) tot (sl_mask s).

(** line 627: thresholded_cube.data[index][unmasked] += truth_value[unmasked] *)
Fixpoint add_truth (acc tv : list Q) (mask : list bool) : list Q :=
  match acc, tv, mask with
  | a :: acc, v :: tv, m :: mask => (if m then a else a + v) :: add_truth acc tv mask
  | _, _, _ => []
  end.

(** lines 613-627 for one slice: every threshold in turn. *)
Fixpoint add_slice (c : cmp) (tbs : list (Q * (Q * Q))) (accs : list (list Q)) (s : slice)
  : result (list (list Q)) :=
  match tbs, accs with
  | (t, b) :: tbs, a :: accs =>
      let* tv := truth_values c t b (sl_data s) in
      let* rest := add_slice c tbs accs s in
      Ok (add_truth a tv (sl_mask s) :: rest)
  | _, _ => Ok []
  end.

(** lines 594-627: the loop over input slices. *)
Fixpoint slices_loop (c : cmp) (tbs : list (Q * (Q * Q))) (ss : list slice)
  (tot : list nat) (accs : list (list Q)) : result (list nat * list (list Q)) :=
  match ss with
  | [] => Ok (tot, accs)
  | s :: r =>
      if sl_nan s then Err ValueError
      else
        let tot' := add_contrib tot s in
        let* accs' := add_slice c tbs accs s in
        slices_loop c tbs r tot' accs'
  end.

(** lines 632-645: divide where valid, mask elsewhere. *)
Definition finish (tot : list nat) (acc : list Q) : list (option Q) :=
  zipw (fun n a => match n with O => None | _ => Some (a / Qn n) end) tot acc.

(** lines 516-677 (process) without vicinity: [n] is the number of grid points; the
    slices are the realizations when collapsing, otherwise the whole cube as one slice.
    Output: thresholds x points, None = masked. *)
Definition process (p : threshold_plugin) (n : nat) (ss : list slice) : result (list (list (option Q))) :=
  let tbs := combine (tp_thresholds p) (tp_bounds p) in
  let* (tot, accs) := slices_loop (tp_cmp p) tbs ss (repeat 0%nat n) (map (fun _ => repeat 0 n) tbs) in
  Ok (map (finish tot) accs).

(** * The instance as a state machine (C29) *)

(** What process reads of an input cube's coordinates: its percentile points (if any)
    and whether it has a realization coordinate. *)
Record cube_kind := { ck_percentiles : option (list Q); ck_realization : bool }.
