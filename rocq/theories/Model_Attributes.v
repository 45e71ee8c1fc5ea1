(** Model of improver/metadata/amend.py, of the attribute functions of improver/metadata/utilities.py and of the names
    in improver/metadata/probabilistic.py.  The attributes of a cube are a list of entries, in the order of the
    dictionary, with string values; [get] finds an entry (Model_Manip). *)
From Coq Require Import Ascii.
From Verif Require Import Base Model_Probability Model_Manip.
Local Open Scope string_scope.

(** d[k] = v: an existing entry keeps its place, a new one goes to the end. *)
Fixpoint set_attr (k v : string) (a : attributes) : attributes :=
  match a with [] => [(k, v)] | (k', v') :: r => if String.eqb k k' then (k', v) :: r else (k', v') :: set_attr k v r end.
(** d.pop(k, None). *)
Definition drop_attr (k : string) (a : attributes) : attributes := filter (fun e => negb (String.eqb k (fst e))) a.
(** d.update(e). *)
Definition update (a b : attributes) : attributes := fold_left (fun d e => set_attr (fst e) (snd e) d) b a.

(** metadata/constants/attributes.py lines 7-13. *)
Definition mandatory_defaults : attributes := [("title", "unknown"); ("source", "IMPROVER"); ("institution", "unknown")].

(** metadata/utilities.py lines 120-122: the value that every cube has, if there is exactly one and none lacks it. *)
Definition common_value (k : string) (cubes : list attributes) : option string :=
  match cubes with
  | [] => None
  | a :: r => match get k a with Some v => if forallb (fun b => match get k b with Some w => String.eqb w v | None => false end) r then Some v else None | None => None end
  end.
(** lines 96-129 (generate_mandatory_attributes); an empty model_id_attr counts as not given (line 117). *)
Definition generate_mandatory_attributes (cubes : list attributes) (model_id : option string) : result attributes :=
  let required := match model_id with Some "" => [] | Some m => [m] | None => [] end in
  fold_left (fun acc k => let* d := acc in
    match common_value k cubes with Some v => Ok (set_attr k v d) | None => if existsb (String.eqb k) required then Err ValueError else Ok d end)
    (map fst mandatory_defaults ++ required) (Ok mandatory_defaults).

(** lines 217-249 (get_model_id_attr). *)
Definition get_model_id_attr (cubes : list attributes) (k : string) : result string :=
  let* vs := mapM (fun a => match get k a with Some v => Ok v | None => Err ValueError end) cubes in
  match nodup string_dec vs with [v] => Ok v | _ => Err ValueError end.

(** lines 62-71 (create_new_diagnostic_cube, its attributes): the dictionary that the caller passed is itself
    updated with the optional ones and is the one checked.  First component: the caller's dictionary afterwards. *)
Definition new_cube_attributes (mandatory : attributes) (optional : option attributes) : attributes * result attributes :=
  let d := match optional with Some o => update mandatory o | None => mandatory end in
  (d, if forallb (fun k => match get k d with Some _ => true | None => false end) (map fst mandatory_defaults) then Ok d else Err ValueError).

(** Python's value.format(x) for a value with replacement fields {} and the escapes {{ and }}; every other use of a
    brace is taken as an error (simplification: a numbered or named field beside the escaped "{{}}" would be accepted
    by Python or fail with another exception). *)
Fixpoint py_format (s arg : string) (used : bool) : result string :=
  match s with
  | "" => Ok ""
  | String c r =>
      if Ascii.eqb c "{" then
        match r with
        | String d r' => if Ascii.eqb d "{" then let* o := py_format r' arg used in Ok (String "{" o)
                         else if Ascii.eqb d "}" then if used then Err IndexError else let* o := py_format r' arg true in Ok (arg ++ o)
                         else Err ValueError
        | "" => Err ValueError
        end
      else if Ascii.eqb c "}" then
        match r with String d r' => if Ascii.eqb d "}" then let* o := py_format r' arg used in Ok (String "}" o) else Err ValueError | "" => Err ValueError end
      else let* o := py_format r arg used in Ok (String c o)
  end.
(** amend.py lines 38-56, one entry.  [stamp] fills in the current time (lines 39-48) and concerns only values that
    contain "{now:". *)
Definition amend_one (stamp : string -> string) (a : attributes) (e : string * string) : result attributes :=
  let (k, v0) := e in
  let v := if contains "{now:" v0 then stamp v0 else v0 in
  if String.eqb v "remove" then Ok (drop_attr k a)
  else if contains "{}" v then let* w := py_format v (match get k a with Some old => old | None => "" end) false in Ok (set_attr k w a)
  else Ok (set_attr k v a).
(** lines 20-56 (amend_attributes): the cube's attributes afterwards, and the exception if there was one. *)
Fixpoint amend_attributes (stamp : string -> string) (a : attributes) (changes : attributes) : attributes * option err :=
  match changes with
  | [] => (a, None)
  | e :: r => match amend_one stamp a e with Ok b => amend_attributes stamp b r | Err x => (a, Some x) end
  end.
(** lines 59-81 (set_history_attribute); [timestamp] is the formatted current time. *)
Definition set_history (timestamp value : string) (append_to : bool) (a : attributes) : attributes :=
  let entry := timestamp ++ ": " ++ value in
  match append_to, get "history" a with
  | true, Some old => set_attr "history" (old ++ "; " ++ entry) a
  | _, _ => set_attr "history" entry a
  end.

(** Python's s.split(" "). *)
Fixpoint split_words (s : string) : list string :=
  match s with
  | "" => [""]
  | String c r => if Ascii.eqb c " " then "" :: split_words r
                  else match split_words r with w :: ws => String c w :: ws | [] => [String c ""] end
  end.
(** amend.py lines 84-111 (update_model_id_attr_attribute): the value under model_id_attr. *)
Definition sort_words (l : list string) : list string := isort String.leb (nodup string_dec l).
Definition model_id_words (cubes : list attributes) (k : string) : result string :=
  let* vs := mapM (fun a => match get k a with Some v => Ok v | None => Err AttributeError end) cubes in
  Ok (String.concat " " (sort_words (flat_map split_words vs))).

(** metadata/probabilistic.py lines 16-35: the text that may follow the diagnostic's name; [suffix_at] is the group
    "thresh", [tail_at] the optional group "vicinity" and "thresh", and [find_tail] the shortest "diag" before them.
    A newline inside a name is not considered. *)
Definition thresholds_text : list string := ["_above_threshold"; "_below_threshold"; "_between_thresholds"].
Definition vicinity_text : list string := ["_in_vicinity"; "_in_variable_vicinity"].
Definition after (w s : string) : string := substring (String.length w) (String.length s - String.length w) s.
Definition suffix_at (s : string) : option string :=
  match find (fun w => String.prefix w s) thresholds_text with Some w => Some w | None => if String.eqb s "" then Some "" else None end.
Definition vicinity_at (w s : string) : option (string * string) :=
  if String.prefix w s then option_map (fun t => (w, t)) (suffix_at (after w s)) else None.
Definition tail_at (s : string) : option (string * string) :=
  match vicinity_at "_in_vicinity" s with
  | Some x => Some x
  | None => match vicinity_at "_in_variable_vicinity" s with Some x => Some x | None => option_map (fun t => ("", t)) (suffix_at s) end
  end.
Fixpoint find_tail (s : string) : option (string * (string * string)) :=
  match tail_at s with
  | Some x => Some ("", x)
  | None => match s with "" => None | String c r => option_map (fun y => (String c (fst y), snd y)) (find_tail r) end
  end.
Definition name_parts (n : string) : option (string * (string * string)) :=
  if String.prefix "probability_of_" n then find_tail (after "probability_of_" n) else None.
(** lines 71-107 (_extract_diagnostic_name). *)
Definition extract_diagnostic_name (n : string) (check_vicinity : bool) : result string :=
  match name_parts n with Some (d, (v, _)) => Ok (if check_vicinity then d ++ v else d) | None => Err ValueError end.
(** lines 38-55 (in_vicinity_name_format). *)
Definition in_vicinity_name_format (n : string) : result string :=
  match name_parts n with Some (d, (_, t)) => Ok ("probability_of_" ++ d ++ "_in_vicinity" ++ t) | None => Err AttributeError end.

(** A cell method: method, coordinates, intervals, comments. *)
Record cell_method := { cm_method : string; cm_coords : list string; cm_intervals : list string; cm_comments : list string }.
Definition with_comments (l : list string) (c : cell_method) : cell_method := {| cm_method := cm_method c; cm_coords := cm_coords c; cm_intervals := cm_intervals c; cm_comments := l |}.
(** amend.py lines 150-195 (_update_cell_methods). *)
Definition update_cell_methods (ms : list cell_method) (original new_name : string) : list cell_method :=
  let d := match extract_diagnostic_name original false with Ok x => x | Err _ => original end in
  map (fun c => match cm_comments c with [t] => if contains d t then with_comments ["of " ++ new_name] c else c | _ => c end) ms.
(** amend.py lines 114-147 (update_diagnostic_name).  [methods] are those of the source, [own] those of the result
    before.  Result: name, name of the threshold coordinate (for a probability cube), cell methods. *)
Definition base_name (n : string) : string := replace "_in_vicinity" "" (replace "_in_variable_vicinity" "" n).
Definition update_diagnostic_name (is_prob : bool) (original new_name : string) (methods own : list cell_method) : result (string * option string * list cell_method) :=
  let ms := match methods with [] => own | _ => update_cell_methods methods original (base_name new_name) end in
  if is_prob then
    let* d := extract_diagnostic_name original true in
    Ok (replace d new_name original, Some (base_name new_name), ms)
  else Ok (new_name, None, ms).
(** probabilistic.py lines 251-295 (format_cell_methods_for_probability / _for_diagnostic). *)
Definition methods_for_probability (threshold : string) (ms : list cell_method) : list cell_method := map (with_comments ["of " ++ threshold]) ms.
Definition methods_for_diagnostic (ms : list cell_method) : list cell_method := map (with_comments []) ms.
