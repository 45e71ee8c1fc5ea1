(** Model of the tables of improver/psychrometric_calculations/hail_size.py: HailSize.get_hail_size, updated_hail_size
    and the masking of hail_size_data, at one point.  The temperatures from which the indices come are inputs. *)
From Coq Require Import ZArith QArith List Bool.
From Verif Require Import Base Model_Percentiles.
Import ListNotations.
Local Open Scope Z_scope.

(** lines 94-148 (nomogram_values). *)
Definition nomogram : list (list Z) :=
  [[0; 0; 0; 2; 2; 5; 5; 5; 5; 5];
   [0; 0; 0; 2; 5; 5; 5; 5; 10; 10];
   [0; 0; 2; 2; 5; 5; 10; 10; 15; 15];
   [0; 0; 2; 2; 5; 10; 15; 15; 20; 20];
   [0; 0; 2; 2; 10; 15; 20; 20; 20; 20];
   [0; 2; 2; 5; 15; 20; 20; 20; 25; 25];
   [0; 2; 5; 10; 20; 20; 25; 25; 30; 30];
   [2; 2; 10; 15; 20; 25; 30; 30; 35; 35];
   [2; 5; 10; 20; 25; 30; 35; 35; 40; 40];
   [2; 5; 15; 20; 30; 35; 40; 40; 45; 45];
   [2; 5; 15; 20; 30; 40; 40; 40; 45; 50];
   [2; 10; 20; 25; 35; 40; 45; 45; 50; 50];
   [5; 10; 20; 25; 40; 40; 45; 50; 55; 55];
   [5; 15; 20; 30; 40; 45; 50; 55; 60; 60];
   [5; 15; 25; 30; 40; 45; 55; 60; 60; 65];
   [5; 15; 25; 35; 40; 50; 55; 60; 65; 75];
   [10; 15; 25; 35; 45; 50; 60; 65; 70; 80];
   [10; 15; 25; 40; 45; 55; 60; 70; 80; 85];
   [10; 15; 30; 40; 45; 55; 65; 75; 85; 90];
   [10; 20; 30; 40; 50; 60; 70; 80; 90; 100];
   [10; 20; 30; 40; 50; 60; 70; 80; 95; 105];
   [10; 20; 35; 45; 50; 60; 75; 85; 100; 110];
   [10; 20; 35; 45; 50; 60; 75; 90; 105; 115];
   [15; 25; 35; 45; 50; 65; 80; 100; 110; 120];
   [15; 25; 35; 45; 55; 65; 80; 100; 110; 120];
   [15; 25; 35; 50; 55; 65; 80; 100; 110; 120]].
(** lines 150-181 (updated_nomogram). *)
Definition wbzh_keys : list Q := [3350; 3550; 3750; 3950; 4150; 4400]%Q.
Definition hail_groups : list Z := [5; 10; 20; 25; 50; 75; 100; 125].
Definition updated_values : list (list Z) :=
  [[0; 5; 10; 15; 25; 50; 65; 75];
   [0; 0; 5; 10; 20; 20; 25; 30];
   [0; 0; 0; 5; 10; 15; 15; 15];
   [0; 0; 0; 0; 5; 10; 10; 10];
   [0; 0; 0; 0; 0; 0; 5; 5];
   [0; 0; 0; 0; 0; 0; 0; 0]].

(** bisect.bisect_right on a sorted list: how many of its elements are not greater. *)
Definition bisect_right (keys : list Q) (x : Q) : nat := length (filter (fun k => Qle_bool k x) keys).
(** numpy indexing of a list of rows, a negative index counting from the end. *)
Definition index (n : nat) (i : Z) : nat := if i <? 0 then Z.to_nat (Z.of_nat n + i) else Z.to_nat i.
Definition cell (t : list (list Z)) (i j : Z) : Z := let row := nth (index (length t) i) t [] in nth (index (length row) j) row 0.

(** lines 344-367 (updated_hail_size). *)
Definition updated_hail_size (hail : Z) (wbz : Q) : Z :=
  let height_index := Z.of_nat (bisect_right wbzh_keys wbz) - 1 in
  let hail_index := Z.of_nat (bisect_right (map inject_Z hail_groups) (inject_Z hail)) in
  cell updated_values height_index hail_index.
(** lines 289-342 (get_hail_size); None: masked. *)
Definition get_hail_size (vertical horizontal : option Q) (wbz : Q) : Z :=
  let size := match vertical, horizontal with
    | Some v, Some h =>
        let hr := round_half_even (h / 5) - 1 in let vr := round_half_even (v * 2) in
        let vc := Z.min vr (Z.of_nat (length nomogram) - 1) in let hc := Z.min hr (Z.of_nat (length (nth 0 nomogram [])) - 1) in
        if (0 <=? vr) && (0 <=? hr) then cell nomogram vc hc else cell nomogram 0 0
    | _, _ => cell nomogram 0 0 end in
  if Qle_bool 3300 wbz then updated_hail_size size wbz else size.
(** lines 416-433 (hail_size_data): the ascent and the descent are given; masked where the temperature at the
    condensation level is below 268.15 K (or where the inputs are masked); metres. *)
Definition hail_size (temp_saturated temp_dry temp_268 : option Q) (ccl_temperature wbz : Q) : Q :=
  let diff a b := match a, b with Some x, Some y => Some (x - y)%Q | _, _ => None end in
  let mask v := if Qltb ccl_temperature (26815 # 100) then None else v in
  (inject_Z (get_hail_size (mask (diff temp_saturated temp_268)) (mask (diff temp_dry temp_268)) wbz) / 1000)%Q.
