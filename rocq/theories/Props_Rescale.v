(** C08: linear rescaling (improver/utilities/rescale.py).
    Every theorem quantifies over all data vectors and all ranges. *)
From Verif Require Import Base Model_Rescale Proofs_Rescale.

(** Specification: the straight line through (dl, sl) and (dr, sr). *)
Definition on_line (dl sl dr sr x y : Q) : Prop := (y - sl) * (dr - dl) == (x - dl) * (sr - sl).

(** rescale succeeds exactly when neither range has zero width, otherwise ValueError. *)
Theorem C08_errors data dl dr sl sr b :
  (rescale data (Some (dl, dr)) (sl, sr) b = Err ValueError <-> (dl == dr \/ sl == sr)) /\
  (~ dl == dr -> ~ sl == sr -> exists out, rescale data (Some (dl, dr)) (sl, sr) b = Ok out).
Proof. exact (conj (rescale_err data dl dr sl sr b)
  (fun H1 H2 => ex_intro _ _ (rescale_total data dl dr sl sr b H1 H2))). Qed.

(** Without clipping every output lies on the line through the end points. *)
Theorem C08_linear data dl dr sl sr out i :
  rescale data (Some (dl, dr)) (sl, sr) false = Ok out -> (i < length data)%nat ->
  length out = length data /\ on_line dl sl dr sr (nth i data 0) (nth i out 0).
Proof. exact (rescale_linear data dl dr sl sr out i). Qed.

(** End points go to end points, clipped or not. *)
Theorem C08_endpoints data dl dr sl sr b out i :
  rescale data (Some (dl, dr)) (sl, sr) b = Ok out -> (i < length data)%nat ->
  (nth i data 0 == dl -> nth i out 0 == sl) /\ (nth i data 0 == dr -> nth i out 0 == sr).
Proof. exact (rescale_endpoints data dl dr sl sr b out i). Qed.

(** Clipped output never leaves the scale range, and clipping does not touch data
    inside the data range. *)
Theorem C08_clip data dl dr sl sr out raw i :
  rescale data (Some (dl, dr)) (sl, sr) true = Ok out ->
  rescale data (Some (dl, dr)) (sl, sr) false = Ok raw -> (i < length data)%nat ->
  Qmin sl sr <= nth i out 0 <= Qmax sl sr /\
  (Qmin dl dr <= nth i data 0 <= Qmax dl dr -> nth i out 0 == nth i raw 0).
Proof. exact (rescale_clip_thm data dl dr sl sr out raw i). Qed.

(** Clipped output is the point of [min s, max s] nearest to the unclipped one. *)
Theorem C08_clip_value data dl dr sl sr out raw i :
  rescale data (Some (dl, dr)) (sl, sr) true = Ok out ->
  rescale data (Some (dl, dr)) (sl, sr) false = Ok raw -> (i < length data)%nat ->
  (nth i raw 0 <= Qmin sl sr -> nth i out 0 == Qmin sl sr) /\
  (Qmax sl sr <= nth i raw 0 -> nth i out 0 == Qmax sl sr).
Proof. exact (rescale_clip_value data dl dr sl sr out raw i). Qed.

(** Order preserving for a rising scale, order reversing for a falling one. *)
Theorem C08_monotone data dl dr sl sr b out i j :
  rescale data (Some (dl, dr)) (sl, sr) b = Ok out -> dl < dr ->
  (i < length data)%nat -> (j < length data)%nat -> nth i data 0 <= nth j data 0 ->
  (sl < sr -> nth i out 0 <= nth j out 0) /\ (sr < sl -> nth j out 0 <= nth i out 0).
Proof. exact (rescale_mono_thm data dl dr sl sr b out i j). Qed.

(** Rescaling back recovers the data. *)
Theorem C08_inverse data dl dr sl sr out :
  rescale data (Some (dl, dr)) (sl, sr) false = Ok out ->
  exists back, rescale out (Some (sl, sr)) (dl, dr) false = Ok back /\ Forall2 Qeq back data.
Proof. exact (rescale_inverse_thm data dl dr sl sr out). Qed.

(** Omitting the range uses the data's own extremes. *)
Theorem C08_default_range data sl sr out :
  rescale data None (sl, sr) false = Ok out ->
  exists lo hi, lo < hi /\ (exists x, In x data /\ x == lo) /\ (exists x, In x data /\ x == hi) /\
    Forall (fun x => lo <= x <= hi) data /\
    rescale data (Some (lo, hi)) (sl, sr) false = Ok out.
Proof. exact (rescale_default_thm data sl sr out). Qed.

(** Double scaling: each value is combined with a limit that is s0 up to d0, on the line to s1 at d1, on the line to s2 at d2, and s2 from there on. *)
Theorem C08_double_scaling data scaled d0 d1 d2 s0 s1 s2 comb out i : d0 < d1 -> d1 < d2 ->
  apply_double_scaling data scaled d0 d1 d2 s0 s1 s2 comb = Ok out -> length scaled = length data -> (i < length data)%nat ->
  exists limit, nth i out 0 = comb (nth i scaled 0) limit /\
    (nth i data 0 <= d0 -> limit == s0) /\ (d0 <= nth i data 0 <= d1 -> on_line d0 s0 d1 s1 (nth i data 0) limit) /\
    (d1 <= nth i data 0 <= d2 -> on_line d1 s1 d2 s2 (nth i data 0) limit) /\ (d2 <= nth i data 0 -> limit == s2).
Proof. exact (double_scaling_limit data scaled d0 d1 d2 s0 s1 s2 comb out i). Qed.
(** It is refused exactly when two neighbouring points of either triple coincide. *)
Theorem C08_double_scaling_errors data scaled d0 d1 d2 s0 s1 s2 comb :
  (exists out, apply_double_scaling data scaled d0 d1 d2 s0 s1 s2 comb = Ok out) <-> ~ (d0 == d1 \/ d1 == d2 \/ s0 == s1 \/ s1 == s2).
Proof. exact (double_scaling_ok data scaled d0 d1 d2 s0 s1 s2 comb). Qed.
Example C08_double_case : exists out, apply_double_scaling [-1; 1 # 40; 1 # 20; 3 # 40; 1] [1; 1; 1; 1; 1] 0 (1 # 20) (1 # 10) 0 (1 # 4) 1 Qmin = Ok out /\
  Forall2 Qeq out [0; 1 # 8; 1 # 4; 5 # 8; 1].
Proof. eexists; split; [reflexivity|]. repeat constructor. Qed.

Example C08_case : exists out, rescale [0; 5; 10; 20] (Some (0, 10)) (100, 0) true = Ok out /\
  Forall2 Qeq out [100; 50; 0; 0].
Proof. eexists; split; [reflexivity|]. repeat constructor. Qed.
Example C08_default_case : exists out, rescale [2; 4; 3] None (0, 1) false = Ok out /\ Forall2 Qeq out [0; 1; 1#2].
Proof. eexists; split; [reflexivity|]. repeat constructor. Qed.

Print Assumptions C08_errors.
Print Assumptions C08_linear.
Print Assumptions C08_endpoints.
Print Assumptions C08_clip.
Print Assumptions C08_clip_value.
Print Assumptions C08_monotone.
Print Assumptions C08_inverse.
Print Assumptions C08_default_range.
Print Assumptions C08_double_scaling.
Print Assumptions C08_double_scaling_errors.
