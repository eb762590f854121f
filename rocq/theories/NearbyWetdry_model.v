(** * Model of /repo/pycomlink/processing/wet_dry/nearby_wetdry.py

    Links are positions 0..n-1: link ids are distinct and [pmin] and
    [ds_dist] list them in the same order.  2-D arrays (link, time) are lists
    of rows.  Time parameters are whole numbers, as documented. *)
From Coq Require Import List ZArith Bool.
From Verif Require Import Base Num NumList NpOps Libm Median Haversine_model.
Import ListNotations.
Local Open Scope nat_scope.

Section Model.
Context {O : numops}.

Record distances := { a_to_all_a : list (list O); a_to_all_b : list (list O); b_to_all_a : list (list O); b_to_all_b : list (list O) }.

(** nearby_wetdry.py:8-84 [calc_distance_between_cml_endpoints] *)
Definition calc_distance_between_cml_endpoints (L : libm O) (n : nat)
    (site_a_latitude site_a_longitude site_b_latitude site_b_longitude : list O) : distances :=
  let rows lon lat lons lats :=
    map (fun i => map2 (haversine L (nget lon i) (nget lat i)) lons lats) (seq 0 n) in
  let zero_diag m :=
    map (fun i => map (fun j => if Nat.eqb i j then zero else nget (get [] m i) j) (seq 0 n)) (seq 0 n) in
  {| a_to_all_a := zero_diag (rows site_a_longitude site_a_latitude site_a_longitude site_a_latitude);
     a_to_all_b := zero_diag (rows site_a_longitude site_a_latitude site_b_longitude site_b_latitude);
     b_to_all_a := zero_diag (rows site_b_longitude site_b_latitude site_a_longitude site_a_latitude);
     b_to_all_b := zero_diag (rows site_b_longitude site_b_latitude site_b_longitude site_b_latitude) |}.

(** nearby_wetdry.py:158-163 [within_r] *)
Definition within_r (d : distances) (radius : O) : list (list bool) :=
  let lt := map (map (fun x => n_ltb x radius)) in
  map2 (map2 andb) (map2 (map2 andb) (map2 (map2 andb) (lt (a_to_all_a d)) (lt (a_to_all_b d))) (lt (b_to_all_a d))) (lt (b_to_all_b d)).

Definition amax (v : list O) : O := match np_max v with Ok m => m | Err _ => n_nan end.
Fixpoint mapM {A B} (f : A -> res B) (l : list A) : res (list B) :=
  match l with [] => Ok [] | x :: t => do y <- f x; do ys <- mapM f t; Ok (y :: ys) end.

(** [(cond).shift(time=s)]: NaN shifted in, which [xr.where] takes as true *)
Definition shift (s : Z) (l : list bool) : list bool :=
  map (fun t => let k := (Z.of_nat t - s)%Z in
                if (k <? 0)%Z || (Z.of_nat (length l) <=? k)%Z then true else get false l (Z.to_nat k))
      (seq 0 (length l)).

(** column [t] of the selected rows *)
Definition column (rows : list (list O)) (t : nat) : list O := map (fun r => nget r t) rows.

(** nearby_wetdry.py:177-236: one iteration of the loop over links; [None] if
    the link has too few neighbours *)
Definition classify_link (T : nat) (within : list (list bool)) (deltaP deltaPL : list (list O))
    (thresh_median_P thresh_median_PL : O) (min_links interval timeperiod : nat) (cml : nat) : res (option (list O * list O)) :=
  let mask := get [] within cml in
  (* 179 *)
  if Nat.ltb min_links (length (where_true mask)) then
    (* 181-183 *)
    let near_P := mask_select [] mask deltaP in
    let near_PL := mask_select [] mask deltaPL in
    (* 187-201: [deltaP.count("cml_id") > min_links], median over links *)
    let enough t := Nat.ltb min_links (length (not_nan (column near_P t))) in
    let med rows t := median (not_nan (map (fun x => if enough t then x else n_nan) (column rows t))) in
    let medianP := map (med near_P) (seq 0 T) in
    let medianPL := map (med near_PL) (seq 0 T) in
    (* 204-208 *)
    let wet := map2 (fun p pl : O => if n_isnan p || n_isnan pl then n_nan
                       else if n_ltb p thresh_median_P && n_ltb pl thresh_median_PL then one else zero) medianP medianPL in
    (* 211-214 *)
    if negb (get false mask cml) then Err KeyError else
    let own_P := get [] deltaP cml in
    let F_val := map2 n_sub (get [] deltaPL cml) medianPL in
    do sums <- rolling n_sum (timeperiod * 4) (timeperiod * 4) F_val;
    let F := map (fun x => n_mul x (n_div (n_ofZ (Z.of_nat interval)) (n_ofZ 60))) sums in
    (* 216-236 *)
    let wet_tmp := wet in
    let cond := map2 (fun w p : O => n_eqb w one && n_ltb p (n_ofZ (-2))) wet_tmp own_P in
    let wet := fold_left (fun w s => map2 (fun (c : bool) (x : O) => if c then one else x) (shift s cond) w) [1%Z; (-1)%Z; (-2)%Z] wet in
    let wet := map2 (fun w0 w : O => if n_isnan w0 then n_nan else w) wet_tmp wet in
    Ok (Some (wet, F))
  else Ok None.

(** nearby_wetdry.py:87-238 [nearby_wetdry] *)
Definition nearby_wetdry (T : nat) (pmin : list (list O)) (lengths : list O) (ds_dist : distances) (radius : O)
    (thresh_median_P thresh_median_PL : O) (min_links interval timeperiod min_hours : nat) : res (list (list O) * list (list O)) :=
  if Nat.eqb interval 0 then Err ZeroDivisionError else
  let period := timeperiod * 60 / interval in
  let hours_needed := min_hours * 60 / interval in
  if negb (rolling_ok period hours_needed T) then Err ValueError else
  do max_pmin <- mapM (rolling amax period hours_needed) pmin;
  let deltaP := map2 (map2 n_sub) pmin max_pmin in
  let deltaPL := map2 (fun row l => map (fun x => n_div x l) row) deltaP lengths in
  let within := within_r ds_dist radius in
  let full := map (fun _ => repeat (n_nan : O) T) pmin in
  for_range_res (seq 0 (length pmin))
    (fun cml st =>
       do r <- classify_link T within deltaP deltaPL thresh_median_P thresh_median_PL min_links interval timeperiod cml;
       match r with
       | None => Ok st
       | Some (w, f) => Ok (upd cml w (fst st), upd cml f (snd st))
       end) (full, full).
End Model.
Arguments distances : clear implicits.
