(** A distribution that satisfies the hypotheses of C70 and is computed in rationals: x / (1 + |x|), shifted and scaled to the limits. *)
From Verif Require Import Base Model_Bias Model_Dist Spec_Dist.
Local Open Scope Q_scope.

Definition frac (y : Q) : Q := y / (1 + y).
Definition odds (u : Q) : Q := u / (1 - u).
Definition toy_ppf : quantile_fn := fun a b p =>
  match a, b with
  | None, None => if (1 # 2) <=? p then odds (2 * p - 1) else - odds (1 - 2 * p)
  | Some a, None => a + odds p
  | None, Some b => b - odds (1 - p)
  | Some a, Some b => a + Qmax (b - a) 0 * p
  end.
Definition toy_cdf : cumulative_fn := fun a b x =>
  match a, b with
  | None, None => if 0 <=? x then (1 # 2) * (1 + frac x) else (1 # 2) * (1 - frac (- x))
  | Some a, None => if x <=? a then 0 else frac (x - a)
  | None, Some b => if b <=? x then 1 else 1 - frac (b - x)
  | Some a, Some b => if x <=? a then 0 else if b <=? x then 1 else (x - a) / (b - a)
  end.
Lemma frac_bounds y : 0 <= y -> 0 <= frac y /\ frac y < 1.
Proof. intro H. unfold frac. split; [apply Qle_shift_div_l; lra|apply Qlt_shift_div_r; lra]. Qed.
Lemma frac_mono x y : 0 <= x -> x <= y -> frac x <= frac y.
Proof. intros A B. unfold frac. apply Qle_shift_div_l; [lra|]. assert (E : x / (1 + x) * (1 + y) == x * (1 + y) / (1 + x)) by (field; lra). rewrite E. apply Qle_shift_div_r; [lra|]. lra. Qed.
Lemma frac_odds u : 0 <= u -> u < 1 -> frac (odds u) == u.
Proof. intros A B. unfold frac, odds. field. split; lra. Qed.
Lemma odds_nonneg u : 0 <= u -> u < 1 -> 0 <= odds u. Proof. intros. unfold odds. apply Qle_shift_div_l; lra. Qed.
Lemma odds_pos u : 0 < u -> u < 1 -> 0 < odds u. Proof. intros. unfold odds. apply Qlt_shift_div_l; lra. Qed.
Lemma odds_mono u v : 0 <= u -> u <= v -> v < 1 -> odds u <= odds v.
Proof. intros. unfold odds. apply Qle_shift_div_l; [lra|]. assert (E : u / (1 - u) * (1 - v) == u * (1 - v) / (1 - u)) by (field; lra). rewrite E. apply Qle_shift_div_r; [lra|]. lra. Qed.
Lemma frac_same x y : x == y -> frac x == frac y. Proof. intro H. unfold frac. now rewrite H. Qed.

Lemma toy_standard : standard_distribution toy_ppf toy_cdf.
Proof.
  split.
  - intros a b p q Hp Hpq Hq. destruct a as [a|], b as [b|]; unfold toy_ppf.
    + qmm; nra.
    + assert (M := odds_mono p q). lra.
    + assert (M := odds_mono (1 - q) (1 - p)). lra.
    + destruct (Qleb_spec (1 # 2) p) as [C1|C1], (Qleb_spec (1 # 2) q) as [C2|C2]; try lra.
      * apply odds_mono; lra.
      * assert (A := odds_nonneg (1 - 2 * p)). assert (B := odds_nonneg (2 * q - 1)). lra.
      * assert (M := odds_mono (1 - 2 * q) (1 - 2 * p)). lra.
  - intros a b p Hab Hp Hp1. destruct a as [a|], b as [b|]; cbn [lower_ok upper_ok]; unfold toy_ppf; split; auto.
    + qmm; nra.
    + qmm; nra.
    + assert (N := odds_nonneg p). lra.
    + assert (N := odds_nonneg (1 - p)). lra.
  - intros a b x. destruct a as [a|], b as [b|]; unfold toy_cdf.
    + destruct (Qleb_spec x a) as [C1|C1]; [lra|]. destruct (Qleb_spec b x) as [C2|C2]; [lra|]. split; [apply Qle_shift_div_l; lra|apply Qle_shift_div_r; lra].
    + destruct (Qleb_spec x a) as [C1|C1]; [lra|]. destruct (frac_bounds (x - a)); lra.
    + destruct (Qleb_spec b x) as [C1|C1]; [lra|]. destruct (frac_bounds (b - x)); lra.
    + destruct (Qleb_spec 0 x) as [C1|C1]; [destruct (frac_bounds x); lra|destruct (frac_bounds (- x)); lra].
  - intros a b x y H. destruct a as [a|], b as [b|]; unfold toy_cdf.
    + destruct (Qleb_spec x a) as [C1|C1], (Qleb_spec y a) as [C2|C2], (Qleb_spec b x) as [C3|C3], (Qleb_spec b y) as [C4|C4]; try lra.
      * apply Qle_shift_div_l; lra.
      * apply Qle_shift_div_r; lra.
      * apply Qle_shift_div_l; [lra|]. assert (E : (x - a) / (b - a) * (b - a) == x - a) by (field; lra). lra.
    + destruct (Qleb_spec x a) as [C1|C1], (Qleb_spec y a) as [C2|C2]; try lra; [destruct (frac_bounds (y - a)); lra|apply frac_mono; lra].
    + destruct (Qleb_spec b x) as [C1|C1], (Qleb_spec b y) as [C2|C2]; try lra; [destruct (frac_bounds (b - x)); lra|assert (M := frac_mono (b - y) (b - x)); lra].
    + destruct (Qleb_spec 0 x) as [C1|C1], (Qleb_spec 0 y) as [C2|C2]; try lra.
      * assert (M := frac_mono x y). lra.
      * assert (A := frac_bounds (- x)). assert (B := frac_bounds y). lra.
      * assert (M := frac_mono (- y) (- x)). lra.
  - intros a b p Hab Hp Hp1. destruct a as [a|], b as [b|]; unfold toy_cdf, toy_ppf.
    + assert (M : Qmax (b - a) 0 == b - a) by (qmm; lra). destruct (Qleb_spec (a + Qmax (b - a) 0 * p) a) as [C1|C1]; [nra|]. destruct (Qleb_spec b (a + Qmax (b - a) 0 * p)) as [C2|C2]; [nra|]. rewrite M. field. lra.
    + assert (N := odds_pos p Hp Hp1). destruct (Qleb_spec (a + odds p) a) as [C1|C1]; [lra|]. rewrite (frac_same _ (odds p)) by ring. apply frac_odds; lra.
    + assert (N := odds_pos (1 - p)). destruct (Qleb_spec b (b - odds (1 - p))) as [C1|C1]; [lra|]. rewrite (frac_same _ (odds (1 - p))) by ring. rewrite frac_odds by lra. lra.
    + destruct (Qleb_spec (1 # 2) p) as [C1|C1].
      * assert (N := odds_nonneg (2 * p - 1)). destruct (Qleb_spec 0 (odds (2 * p - 1))) as [C2|C2]; [|lra]. rewrite frac_odds by lra. lra.
      * assert (N := odds_pos (1 - 2 * p)). destruct (Qleb_spec 0 (- odds (1 - 2 * p))) as [C2|C2]; [lra|]. rewrite (frac_same _ (odds (1 - 2 * p))) by ring. rewrite frac_odds by lra. lra.
  - intros a a' b b' x y Ha Hb Hx. destruct a as [a|], a' as [a'|]; try contradiction; destruct b as [b|], b' as [b'|]; try contradiction; cbn [same] in *; unfold toy_cdf.
    + destruct (Qleb_spec x a), (Qleb_spec y a'), (Qleb_spec b x), (Qleb_spec b' y); try lra. now rewrite Ha, Hb, Hx.
    + destruct (Qleb_spec x a), (Qleb_spec y a'); try lra. apply frac_same. lra.
    + destruct (Qleb_spec b x), (Qleb_spec b' y); try lra. rewrite (frac_same (b - x) (b' - y)) by lra. lra.
    + destruct (Qleb_spec 0 x), (Qleb_spec 0 y); try lra; [rewrite (frac_same x y) by lra; lra|rewrite (frac_same (- x) (- y)) by lra; lra].
Qed.
