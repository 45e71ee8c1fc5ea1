(** Model of improver/utilities/save.py: save_netcdf, as the preparation of the cubes and the operations on the file
    system in their order.  A run may stop after any operation (a crash), and several processes may take turns.
    Simplified: a file is the list of pieces written to it; a process writes through its file handle, so a rename does
    not move what it writes to another name; file locks (HDF5 may use them) are not modelled. *)
From Coq Require Import String.
From Verif Require Import Base Model_Manip Model_Attributes Model_Probability Model_Times.
Local Open Scope string_scope.

(** ** Files *)
Record disk (P : Type) := { dk_names : string -> option nat; dk_files : nat -> list P; dk_next : nat }.
Arguments dk_names {P}. Arguments dk_files {P}. Arguments dk_next {P}.
Definition set_name (f : string -> option nat) (n : string) (v : option nat) : string -> option nat := fun m => if String.eqb m n then v else f m.
Definition set_file {P} (f : nat -> list P) (i : nat) (v : list P) : nat -> list P := fun j => if Nat.eqb j i then v else f j.
Definition read {P} (d : disk P) (n : string) : option (list P) := option_map (dk_files d) (dk_names d n).

(** lines 134-146: the temporary name; open (a file that is there is emptied), write, rename. *)
Definition temporary (filename : string) : string := filename ++ ".tmp".
Inductive stage (P : Type) := Start | Writing (handle : nat) (rest : list P) | Done | Failed.
Arguments Start {P}. Arguments Writing {P}. Arguments Done {P}. Arguments Failed {P}.
Record process (P : Type) := { pr_target : string; pr_contents : list P; pr_stage : stage P }.
Arguments pr_target {P}. Arguments pr_contents {P}. Arguments pr_stage {P}.
Definition at_stage {P} (p : process P) (s : stage P) : process P := {| pr_target := pr_target p; pr_contents := pr_contents p; pr_stage := s |}.
Definition step {P} (d : disk P) (p : process P) : disk P * process P :=
  let tmp := temporary (pr_target p) in
  match pr_stage p with
  | Start => match dk_names d tmp with
             | Some i => ({| dk_names := dk_names d; dk_files := set_file (dk_files d) i []; dk_next := dk_next d |}, at_stage p (Writing i (pr_contents p)))
             | None => ({| dk_names := set_name (dk_names d) tmp (Some (dk_next d)); dk_files := set_file (dk_files d) (dk_next d) []; dk_next := Datatypes.S (dk_next d) |}, at_stage p (Writing (dk_next d) (pr_contents p)))
             end
  | Writing i (c :: r) => ({| dk_names := dk_names d; dk_files := set_file (dk_files d) i (dk_files d i ++ [c])%list; dk_next := dk_next d |}, at_stage p (Writing i r))
  | Writing i [] => match dk_names d tmp with
                    | Some j => ({| dk_names := set_name (set_name (dk_names d) (pr_target p) (Some j)) tmp None; dk_files := dk_files d; dk_next := dk_next d |}, at_stage p Done)
                    | None => (d, at_stage p Failed)
                    end
  | Done => (d, p)
  | Failed => (d, p)
  end.
(** Processes take turns as the schedule says; one that does not get another turn has crashed. *)
Fixpoint turn {P} (d : disk P) (ps : list (process P)) (k : nat) : disk P * list (process P) :=
  match ps, k with
  | [], _ => (d, [])
  | p :: r, 0%nat => let (d', p') := step d p in (d', p' :: r)
  | p :: r, Datatypes.S k => let (d', r') := turn d r k in (d', p :: r')
  end.
Definition run {P} (d : disk P) (ps : list (process P)) (schedule : list nat) : disk P * list (process P) := fold_left (fun s k => turn (fst s) (snd s) k) schedule (d, ps).

(** ** Cubes *)
(** What is looked at: the objects of the metadata standards (Model_Times), whether the units are known, the attributes, the shape, the cell methods (as text). *)
Record scube := { sc_objects : list object; sc_known : bool; sc_attributes : attributes; sc_shape : list nat; sc_methods : list string }.
(** lines 18-50 and 90-97: the cubes afterwards, and the exception if there was one. *)
Definition ordered (c : scube) : scube := {| sc_objects := sc_objects c; sc_known := sc_known c; sc_attributes := sc_attributes c; sc_shape := sc_shape c; sc_methods := isort String.leb (sc_methods c) |}.
Definition unlimited (c : scube) : scube := {| sc_objects := sc_objects c; sc_known := sc_known c; sc_attributes := drop_attr "least_significant_digit" (sc_attributes c); sc_shape := sc_shape c; sc_methods := sc_methods c |}.
Fixpoint prepare (cs : list scube) : list scube * option err :=
  match cs with
  | [] => ([], None)
  | c :: r => let c1 := ordered c in
      match check_mandatory_standards (sc_objects c1) with
      | Err e => (c1 :: r, Some e)
      | Ok _ => if sc_known c1 then let (r', e) := prepare r in (unlimited c1 :: r', e) else (c1 :: r, Some ValueError)
      end
  end.
(** lines 101-109. *)
Definition same_front (a b : list nat) : bool := if list_eq_dec Nat.eq_dec (firstn 2 a) (firstn 2 b) then true else false.
Definition one_front (cs : list scube) : bool := match cs with [] => false | c :: r => forallb (fun k => same_front (sc_shape k) (sc_shape c)) r end.
Definition chunk_sizes (cs : list scube) : option (list nat) :=
  if one_front cs then match cs with [] => None | c :: _ => let s := sc_shape c in if (2 <=? length s)%nat then Some (repeat 1%nat (length s - 2) ++ skipn (length s - 2) s)%list else None end else None.
(** lines 111-127: the attributes written with the data.  [cube] is the first cube if the chunk sizes were considered, otherwise the last one. *)
Definition general_keys : list string := ["title"; "um_version"; "grid_id"; "source"; "Conventions"; "institution"; "history"].
Definition key_cube (cs : list scube) : option scube := if one_front cs then hd_error cs else last (map Some cs) None.
Definition global_keys (cs : list scube) : list string := (general_keys ++ match key_cube cs with Some c => filter (contains "mosg__") (map fst (sc_attributes c)) | None => [] end)%list.
Definition local_keys (cs : list scube) : list string := filter (fun k => negb (existsb (String.eqb k) (global_keys cs))) (flat_map (fun c => map fst (sc_attributes c)) cs).
(** The whole: what goes wrong before a file is touched, or the process that writes it.  [pieces] is how iris writes the cubes.  No cubes: there is no cube at line 120 (NameError, here RuntimeError). *)
Definition save_netcdf {P} (pieces : list scube -> option (list nat) -> list string -> list P) (level : Z) (cs : list scube) (filename : string) : list scube * result (process P) :=
  let (cs', e) := prepare cs in
  (cs', match e with
        | Some e => Err e
        | None => match cs' with
                  | [] => Err RuntimeError
                  | _ => if ((0 <=? level) && (level <? 10))%Z then Ok {| pr_target := filename; pr_contents := pieces cs' (chunk_sizes cs') (local_keys cs'); pr_stage := Start |} else Err ValueError
                  end
        end).
