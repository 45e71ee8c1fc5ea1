(** Tables whose sites do not move: lemmas for Props_Frames.v *)
From Verif Require Import Base Model_Frames Proofs_Frames Proofs_FramesCube.
Local Open Scope Q_scope.

Section steady.
Variable st : string -> statics.
Hypothesis Ov : forall a b, over (st a) (st b) = st a.
Definition full (r : row) : Prop := r_statics r = st (r_wmo r).
Definition known (r : row) : Prop := full r \/ r_statics r = nothing.
Lemma over_nothing v : over nothing v = v. Proof. destruct v; reflexivity. Qed.
Lemma over_none v : over v nothing = v. Proof. destruct v as [a b c d e f g h]. unfold over, orelse. cbn. destruct a, b, c, d, e, f, g, h; reflexivity. Qed.
(** Each row is full or followed by one of its site. *)
Fixpoint near (l : list row) : Prop := match l with [] => True | r :: rest => known r /\ (full r \/ match rest with n :: _ => r_wmo n = r_wmo r | [] => False end) /\ near rest end.
Lemma backward_near l : near l -> Forall full (backward_fill l).
Proof.
  induction l as [|r l IH]; intro N; [constructor|]. cbn [backward_fill]. destruct N as (K & S1 & N). specialize (IH N). destruct l as [|n l].
  - cbn. constructor; [|constructor]. destruct S1 as [S1|[]]. exact S1.
  - destruct (backward_fill (n :: l)) as [|n' t] eqn:E; [apply (f_equal (map core)) in E; rewrite core_backward in E; discriminate|].
    assert (Ew : r_wmo n' = r_wmo n). { apply (f_equal (map core)) in E. rewrite core_backward in E. cbn [map] in E. unfold core in E. congruence. }
    constructor; [|exact IH]. inversion IH as [|? ? Fn _]; subst. unfold full in *. cbn [with_statics r_statics r_wmo]. rewrite Fn. destruct K as [K|K].
    + unfold full in K. rewrite K. apply Ov.
    + rewrite K, over_nothing. destruct S1 as [S1|S1]; [|congruence]. rewrite S1 in K. pose proof (Ov (r_wmo r) (r_wmo n')) as O. rewrite K, over_nothing in O. congruence.
Qed.
Lemma latest_known s seen : Forall known seen -> latest s seen = st s \/ latest s seen = nothing.
Proof. intro K. unfold latest. destruct (find _ seen) as [r|] eqn:E; [|now right]. apply find_some in E as [I' E]. apply String.eqb_eq in E. subst s. rewrite Forall_forall in K. exact (K r I'). Qed.
Lemma forward_block s rest : (forall seen, Forall known seen -> near (forward_fill seen rest)) -> forall b seen, Forall (fun r => r_wmo r = s) b -> Forall known b -> Forall known seen -> (b = [] \/ Exists full b \/ latest s seen = st s) -> near (forward_fill seen (b ++ rest)).
Proof.
  intros R. induction b as [|r b IH]; intros seen W K Ks C; [now apply R|]. cbn [app forward_fill]. inversion W as [|? ? Wr W']; subst. inversion K as [|? ? Kr K']; subst. set (r' := with_statics r _).
  assert (Kr' : known r' /\ (full r \/ latest (r_wmo r) seen = st (r_wmo r) -> full r')).
  { unfold r', known, full. cbn [with_statics r_statics r_wmo]. pose proof (latest_known (r_wmo r) seen Ks) as [L|L]; rewrite L; destruct Kr as [Kr|Kr]; unfold full in Kr; rewrite Kr, ?Ov, ?over_nothing, ?over_none; try (split; [now left|reflexivity]); tauto. }
  destruct Kr' as [Kr' Fr']. cbn [near]. split; [exact Kr'|]. split.
  - destruct C as [C|[C|C]]; [discriminate| |left; apply Fr'; now right]. inversion C as [? ? Fr|? ? Ex]; subst; [left; apply Fr'; now left|]. destruct b as [|n b]; [inversion Ex|]. right. cbn [app forward_fill with_statics r_wmo]. inversion W' as [|? ? Wn _]; subst. exact Wn.
  - apply IH; [exact W'|exact K'|now constructor|]. destruct C as [C|[C|C]]; [discriminate| |].
    + inversion C as [? ? Fr|? ? Ex]; subst; [|now right; left]. right; right. rewrite latest_cons. cbn [r' with_statics r_wmo]. rewrite String.eqb_refl. apply Fr'. now left.
    + right; right. rewrite latest_cons. cbn [r' with_statics r_wmo]. rewrite String.eqb_refl. apply Fr'. now right.
Qed.
Lemma filled_full F l : Forall full F -> fill_missing F = Ok l -> Forall full l.
Proof.
  intros Ff H. unfold fill_missing in H. destruct (repeated F); [discriminate|]. injection H as <-. apply backward_near. rewrite completed_eq. rewrite Forall_forall in Ff.
  assert (B : forall ss, (forall s, In s ss -> In s (unique String.eqb (map r_wmo F))) -> forall seen, Forall known seen -> near (forward_fill seen (flat_map (fun s => flat_map (fun t => map (cell_row F s t) (unique Qeq_bool (map r_rep F))) (unique Z.eqb (map r_time F))) ss))); [|apply B; [auto|constructor]].
  induction ss as [|s ss IH]; intros I' seen Ks; [exact Logic.I|]. cbn [flat_map]. set (b := flat_map _ _). apply (forward_block s).
  - intros seen' Ks'. apply IH; [|exact Ks']. intros s' Is'. apply I'. now right.
  - apply Forall_forall. intros r Ir. unfold b in Ir. apply in_flat_map in Ir as (t & _ & Ir). apply in_map_iff in Ir as (p & <- & _). apply cell_wmo.
  - apply Forall_forall. intros r Ir. unfold b in Ir. apply in_flat_map in Ir as (t & _ & Ir). apply in_map_iff in Ir as (p & <- & _). unfold cell_row, known, full. destruct (find _ F) as [q|] eqn:E; cbn; [left|now right]. apply find_some in E as [Iq E]. apply at_key_iff in E as (-> & _). exact (Ff q Iq).
  - exact Ks.
  - right; left. specialize (I' s (or_introl eq_refl)). apply unique_in in I'. apply in_map_iff in I' as (q & <- & Iq). destruct (unique_covers Qeq_bool (r_rep q) (map r_rep F) Qeqb_refl Qeqb_trans) as (p & P1 & P2); [now apply in_map|].
    apply Exists_exists. exists (cell_row F (r_wmo q) (r_time q) p). split.
    + unfold b. apply in_flat_map. exists (r_time q). split; [apply unique_iff; [apply Z.eqb_eq|now apply in_map]|now apply in_map].
    + unfold full. rewrite cell_wmo. unfold cell_row. destruct (find (at_key (r_wmo q) (r_time q) p) F) as [q'|] eqn:Fq; cbn.
      * apply find_some in Fq as [Iq' Fq]. apply at_key_iff in Fq as (-> & _). exact (Ff q' Iq').
      * exfalso. pose proof (find_none _ _ Fq q Iq) as X. unfold at_key in X. rewrite String.eqb_refl, Z.eqb_refl, P2 in X. discriminate.
Qed.
Lemma unique_const {A} (e : A -> A -> bool) v l : e v v = true -> l <> [] -> (forall x, In x l -> x = v) -> unique e l = [v].
Proof.
  intros R. destruct l as [|a l]; [congruence|]. intros _ C. cbn. rewrite (C a) by now left. f_equal. apply filter_none. intros y Iy. apply unique_in in Iy. rewrite (C y) by now right. now rewrite R.
Qed.
Lemma newest_full (col : statics -> option Q) l r : Forall full l -> In r l -> newest col (r_wmo r) l = col (r_statics r).
Proof.
  intros Ff I'. rewrite Forall_forall in Ff. unfold newest. rewrite (unique_const oq_eqb (col (r_statics r))); [reflexivity|apply (e_refl _ equiv_oq)| |].
  - intro E. apply map_eq_nil in E. assert (X : In r (of_site (r_wmo r) l)) by (apply filter_In; split; [exact I'|apply String.eqb_refl]). rewrite E in X. destruct X.
  - intros x Ix. apply in_map_iff in Ix as (q & <- & Iq). apply filter_In in Iq as [Iq Eq]. apply String.eqb_eq in Eq. pose proof (Ff q Iq) as A. pose proof (Ff r I') as B. unfold full in A, B. rewrite A, B, Eq. reflexivity.
Qed.
Lemma consistent_full l : Forall full l -> consistent l = l.
Proof.
  intro Ff. unfold consistent. destruct (_ || _); [|reflexivity]. transitivity (map (fun r => r) l); [|apply map_id]. apply map_ext_in. intros r I'. rewrite !newest_full by assumption. destruct r as [w t p v [a b c d e f g h]]. reflexivity.
Qed.
End steady.
