(** Model of improver/spotdata/spot_manipulation.py (SpotManipulation), over the models of the plugins it calls: Model_Spot (extraction, lapse rates), Model_Percentiles (resampling, probabilities to percentiles) and Model_PercConv (percentiles of realizations).
    A forecast has at each site (or grid point) one list of values for each realization: a single value, one for each percentile or one for each threshold. Other leading dimensions, scalar percentile and realization coordinates, titles and other attributes are not modelled; values that are masked are not modelled where percentiles are resampled or probabilities converted (they count as 0 there). Percentiles are exact (float32 in the code). *)
From Verif Require Import Base Interp Model_Nbhood Model_Percentiles Model_Lapse Model_Spot Model_PercConv.
Local Open Scope Q_scope.

Notation values := (list (list (option Q))) (only parsing).
(** What the values at a site are; for probabilities the name of the diagnostic. *)
Inductive kind := One | Percs (ps : list Q) | Probs (diagnostic : string) (rel : relation) (ths : list Q).
(** [s_real]: is realization a dimension. [s_line]: is spot_index a dimension (and not a scalar). [s_ids]: the site identifiers, by name of coordinate, in the order of the sites. *)
Record spots := { s_meta : smeta; s_real : bool; s_kind : kind; s_ids : list (string * list string); s_line : bool; s_rows : list values; s_hash : option grid_hash }.
Record field := { f_meta : smeta; f_real : bool; f_kind : kind; f_grid : grid_hash + hgrid; f_h : Z; f_w : Z; f_cell : Z -> Z -> values }.
Inductive forecast := Gridded (f : field) | Spots (s : spots).
(** extract_percentiles: None, one number or a list. *)
Inductive wanted := NoPercentiles | OnePercentile (p : Q) | PercentileList (l : list Q).
Record config := { k_lapse : bool; k_fixed : option Q; k_land : bool; k_dz : bool; k_percentiles : wanted; k_ignore : bool; k_skip : bool; k_collapse : bool; k_subset : option string }.

Definition lookup {A} (k : string) (l : list (string * A)) : option A := option_map snd (find (fun e => (fst e =? k)%string) l).
(** lines 159-192: sites of a spot forecast. cube.extract gives nothing without such a coordinate or without such a site; a single site becomes a scalar. *)
Definition positions (wanted ids : list string) : list nat := filter (fun j => existsb (String.eqb (nth j ids ""%string)) wanted) (seq 0 (length ids)).
Definition pick {A} (d : A) (l : list A) (ps : list nat) : list A := map (fun j => nth j l d) ps.
Definition subset (k : string) (nids : list (string * list string)) (s : spots) : result spots :=
  match lookup k nids with
  | None => Err ValueError
  | Some sites =>
    let wanted := filter (fun i => negb (i =? "None")%string) sites in
    match lookup k (s_ids s) with
    | None => Err ValueError
    | Some ids =>
      match positions wanted ids with
      | [] => Err ValueError
      | ps => Ok {| s_meta := s_meta s; s_real := s_real s; s_kind := s_kind s; s_ids := map (fun e => (fst e, pick "" (snd e) ps)) (s_ids s);
                    s_line := (s_line s && negb (length ps =? 1)%nat)%bool; s_rows := pick [] (s_rows s) ps; s_hash := s_hash s |}
      end
    end
  end%string.
(** lines 193-196. *)
Definition extract (m : string) (n : ncube) (nids : list (string * list string)) (f : field) : result spots :=
  let* _ := check_grid_match [inl (n_hash n); f_grid f] in
  let* cs := extract_coordinates m n in
  let* ps := mapM (grid_indices (f_h f) (f_w f)) cs in
  Ok {| s_meta := f_meta f; s_real := f_real f; s_kind := f_kind f; s_ids := nids; s_line := true; s_rows := map (fun p => f_cell f (snd p) (fst p)) ps; s_hash := Some (n_hash n) |}.
(** lines 198-199 (utilities/cube_manipulation.py:59-97, method mean): the mean of the realizations that are not masked. *)
Definition mean (l : list (option Q)) : option Q := match unmasked l with [] => None | v => Some (qsum v / Qlen v) end.
Definition mean_members (v : values) : values :=
  match v with [] => [] | first :: _ => [map (fun i => mean (map (fun member => nth i member None) v)) (seq 0 (length first))] end.
Definition collapse (s : spots) : result spots :=
  if negb (s_real s) then Err CoordinateNotFoundError else
  Ok {| s_meta := s_meta s; s_real := false; s_kind := s_kind s; s_ids := s_ids s; s_line := s_line s; s_rows := map mean_members (s_rows s); s_hash := s_hash s |}.

(** lines 205-242. *)
Definition known (o : option Q) : Q := match o with Some q => q | None => 0 end.
Fixpoint regroup {A B} (shape : list (list A)) (l : list B) : list (list B) :=
  match shape with [] => [] | s :: r => firstn (length s) l :: regroup r (skipn (length s) l) end.
Definition with_rows (s : spots) (real : bool) (k : kind) (meta : smeta) (line : bool) (rows : list values) : spots :=
  {| s_meta := meta; s_real := real; s_kind := k; s_ids := s_ids s; s_line := line; s_rows := rows; s_hash := s_hash s |}.
Definition kept_percentiles (asked ps : list Q) : list nat := filter (fun i => existsb (isclose (nth i ps 0)) asked) (seq 0 (length ps)).
Definition single (s : spots) : bool := (length (s_rows s) =? 1)%nat.
Definition to_percentiles (numba : bool) (bounds : Q * Q) (cfg : config) (asked : list Q) (s : spots) : result spots :=
  match s_kind s with
  | Percs ps =>
    if forallb (fun a => existsb (Qeq_bool a) ps) asked then
      let pos := kept_percentiles asked ps in
      Ok (with_rows s (s_real s) (Percs (pick 0 ps pos)) (s_meta s) (s_line s) (map (map (fun member => pick None member pos)) (s_rows s)))
    else
      let* (desired, out) := resample numba false false bounds ps (map (map known) (concat (s_rows s))) (Some asked) None Quantile in
      Ok (with_rows s (s_real s) (Percs desired) (s_meta s) (s_line s) (regroup (s_rows s) (map (map Some) out)))
  | Probs diagnostic rel ths =>
      let* (pcts, out) := probs_to_percentiles numba (k_ignore cfg) (k_skip cfg) false rel bounds ths (map (map known) (concat (s_rows s))) (Some asked) None Quantile in
      Ok (with_rows s (s_real s) (Percs pcts) {| m_prob := false; m_name := diagnostic; m_height := m_height (s_meta s) |} (s_line s && negb (single s))%bool (regroup (s_rows s) out))
  | One =>
    if s_real s then
      let fast := negb (existsb (existsb (existsb (fun v => match v with None => true | Some _ => false end))) (s_rows s)) in
      if (fast && existsb (fun p => ((p <? 0) || (100 <? p))%bool) asked)%bool then Err ValueError else
      Ok (with_rows s false (Percs asked) (s_meta s) (s_line s)
            (map (fun v => [map (fun p => if fast then Some (np_percentile (unmasked (concat v)) p) else mquantile (concat v) p) asked]) (s_rows s)))
    else Ok s
  end.
(** line 205-206: a number is falsy if it is 0, and iterating over it fails otherwise; an empty list is falsy. *)
Definition percentile_step (numba : bool) (bounds : Q * Q) (cfg : config) (s : spots) : result spots :=
  match k_percentiles cfg with
  | NoPercentiles => Ok s
  | OnePercentile p => if p =? 0 then Ok s else Err TypeError
  | PercentileList [] => Ok s
  | PercentileList asked => to_percentiles numba bounds cfg asked s
  end.
(** lines 244-263; the third cube is that of lapse rates. *)
Definition at_site (s : spots) (idx : list nat) (j : nat) : option Q := match idx with [a; b] => nth b (nth a (nth j (s_rows s) []) []) None | _ => None end.
Definition adjusted (m : string) (fixed : option Q) (n : ncube) (lr : option (smeta * dcube)) (s : spots) : result spots :=
  match s_hash s with
  | None => Err ValueError
  | Some h =>
    let* e := lapse_adjust m fixed (s_meta s) n {| p_dims := []; p_sites := length (s_rows s); p_values := at_site s; p_hash := h |} lr in
    Ok (with_rows s (s_real s) (s_kind s) (s_meta s) (s_line s)
      (map (fun j => map (fun a => map (fun b => p_values e [a; b] j) (seq 0 (length (nth a (nth j (s_rows s) []) [])))) (seq 0 (length (nth j (s_rows s) [])))) (seq 0 (length (s_rows s)))))
  end.
Definition lapse_step (m : string) (cfg : config) (n : ncube) (lr : option (smeta * dcube)) (s : spots) : result spots :=
  if k_lapse cfg then
    match lr, k_fixed cfg with
    | Some _, _ => adjusted m None n lr s
    | None, Some f => adjusted m (Some f) n None s
    | None, None => Ok s
    end
  else Ok s.
Definition drop_hash (s : spots) : spots := {| s_meta := s_meta s; s_real := s_real s; s_kind := s_kind s; s_ids := s_ids s; s_line := s_line s; s_rows := s_rows s; s_hash := None |}.
(** lines 140-268. [bounds] are those of the diagnostic, [nids] the site identifiers of the neighbour cube. *)
Definition manipulate (numba : bool) (bounds : Q * Q) (cfg : config) (n : ncube) (nids : list (string * list string)) (lr : option (smeta * dcube)) (f : forecast) : result spots :=
  let m := method_name (k_land cfg) (k_dz cfg) in
  let* s := match f with
            | Spots s =>
              if (k_lapse cfg || match k_fixed cfg with Some _ => true | None => false end)%bool then Err NotImplementedError
              else match k_subset cfg with None => Ok s | Some k => subset k nids s end
            | Gridded g => extract m n nids g
            end in
  let* s := if k_collapse cfg then collapse s else Ok s in
  let* s := percentile_step numba bounds cfg s in
  let* s := lapse_step m cfg n lr s in
  Ok (drop_hash s).
(** The attribute model_grid_hash of the caller's spot forecast afterwards: if it is neither subset nor collapsed nor converted, the result is the caller's cube itself (line 266). *)
Definition untouched (cfg : config) (s : spots) : bool :=
  match k_subset cfg with Some _ => false | None =>
    (negb (k_collapse cfg) && match k_percentiles cfg with
                              | NoPercentiles | OnePercentile _ | PercentileList [] => true
                              | PercentileList _ => match s_kind s with One => negb (s_real s) | _ => false end
                              end)%bool
  end.
Definition input_hash_after (cfg : config) (s : spots) : option grid_hash := if untouched cfg s then None else s_hash s.
