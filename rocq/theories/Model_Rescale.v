(** Model of improver/utilities/rescale.py. *)
From Verif Require Export Base.

(** rescale.py lines 45-48: the data range defaults to the data's own extremes
    (np.min/np.max of an empty array raise ValueError). *)
Definition data_range_of (data : list Q) (range : option (Q * Q)) : result (Q * Q) :=
  match range with
  | Some r => Ok r
  | None => match data with
            | [] => Err ValueError
            | x :: l => Ok (qminl x l, qmaxl x l)
            end
  end.

(** rescale.py lines 62-68: the arithmetic at one point. *)
Definition rescale_pt (dl dr sl sr : Q) (clipped : bool) (x : Q) : Q :=
  let r := (x - dl) * (sr - sl) / (dr - dl) + sl in
  if clipped then clip (Qmin sl sr) (Qmax sl sr) r else r.

(** rescale.py lines 14-69 (rescale). Masked arrays: the mask is carried along
    untouched by numpy, so the model is on the data values. *)
Definition rescale (data : list Q) (range : option (Q * Q)) (scale : Q * Q) (clipped : bool)
  : result (list Q) :=
  let* (dl, dr) := data_range_of data range in
  let (sl, sr) := scale in
  if dl =? dr then Err ValueError
  else if sl =? sr then Err ValueError
  else Ok (map (rescale_pt dl dr sl sr clipped) data).

(** rescale.py lines 72-126 (apply_double_scaling); [comb] is np.minimum or np.maximum. *)
Fixpoint zipw {A B C} (f : A -> B -> C) (l : list A) (m : list B) : list C :=
  match l, m with x :: l, y :: m => f x y :: zipw f l m | _, _ => [] end.

Definition apply_double_scaling (data scaled : list Q) (d0 d1 d2 s0 s1 s2 : Q)
  (comb : Q -> Q -> Q) : result (list Q) :=
  let* a := rescale data (Some (d0, d1)) (s0, s1) true in
  let* b := rescale data (Some (d1, d2)) (s1, s2) true in
  let rescaled := zipw (fun (d : Q) (ab : Q * Q) => if d <? d1 then fst ab else snd ab) data (combine a b) in
  Ok (zipw comb scaled rescaled).
