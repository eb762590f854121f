(** * Model of /repo/pycomlink/processing/nearby_rain_retrival.py

    One link: 1-D time series of equal time axes.  xarray's alignment of
    different time axes is not modelled. *)
From Coq Require Import List ZArith Bool String.
From Verif Require Import Base Num NumList NpOps Libm KR_model Median.
Import ListNotations.
Local Open Scope nat_scope.
Local Notation length := List.length.

Section Model.
Context {O : numops} (L : libm O).
Variable cubic : list O -> list O -> O -> O.

(** nearby_rain_retrival.py:6-55 [nearby_determine_reference_level] *)
Definition nearby_determine_reference_level (pmin pmax wet : list O) (n_average_dry min_periods : nat) : res (list O) :=
  let dry := map (fun w : O => if n_isnan w then (n_nan : O) else if n_eqb w zero then one else zero) wet in
  let mean := map2 (fun a b => n_div (n_add a b) (n_ofZ 2)) pmin pmax in
  let pmean := map2 (fun (d m : O) => if n_eqb d one then m else n_nan) dry mean in
  rolling median n_average_dry min_periods pmean.

(** nearby_rain_retrival.py:58-99 [nearby_correct_received_signals] *)
Definition nearby_correct_received_signals (pmin pmax wet pref : list O) : list O * list O :=
  let where_ (c : list bool) (x y : list O) := map2 (fun (c : bool) p => if c then fst p else snd p) c (combine x y) in
  let p_c_min := where_ (map2 andb (map2 n_ltb pmin pref) (map (fun w => n_eqb w one) wet)) pmin pref in
  let p_c_max := where_ (map2 andb (map2 n_ltb p_c_min pref) (map2 n_ltb pmax pref)) pmax pref in
  (p_c_min, p_c_max).

(** nearby_rain_retrival.py:101-232 [nearby_rainfall_retrival] (decorator:
    Wrapper_model.v).  A scalar coefficient broadcasts like a length-1 array. *)
Definition nearby_rainfall_retrival (pref p_c_min p_c_max F : list O) (len : O)
    (f_GHz : option (list O)) (pol : option pol_arg) (a b : option (coef O)) (approx : string)
    (waa_max alpha : O) (F_value_threshold : option O) : res (list O) :=
  (* 186-203 *)
  do ab <- (match f_GHz, pol, a, b with
            | Some f, Some p, None, None =>
                let p := match p with PolStr s => PolArr [s] | PolArr l => PolArr l end in
                do ab <- a_b cubic f p approx; Ok (CArr (fst ab), CArr (snd ab))
            | None, None, Some a, Some b => Ok (a, b)
            | _, _, _, _ => Err ValueError
            end);
  let '(a, b) := ab in
  (* 206-207 *)
  do A_min <- bcast2 n_sub pref p_c_max;
  do A_max <- bcast2 n_sub pref p_c_min;
  (* 210-211 *)
  let A_min := map (fun x => n_sub x waa_max) A_min in
  let A_max := map (fun x => n_sub x waa_max) A_max in
  (* 214-215 *)
  let A_min := map (fun x => if n_ltb x zero then zero else x) A_min in
  let A_max := map (fun x => if n_ltb x zero then zero else x) A_max in
  (* 218-219 *)
  let al := map (fun x => n_mul x len) (coef_list a) in
  do q_min <- bcast2 n_div A_min al;
  do e <- coef_inv b;
  do r_min <- bcast2 (m_pow L) q_min e;
  do q_max <- bcast2 n_div A_max al;
  do r_max <- bcast2 (m_pow L) q_max e;
  (* 222 *)
  do R <- bcast2 n_add (map (n_mul alpha) r_max) (map (n_mul (n_sub one alpha)) r_min);
  (* 225-226 *)
  match F_value_threshold with
  | None => Ok R
  | Some t => if Nat.eqb (length F) (length R) then Ok (mask_fill (map (fun x => n_leb x t) F) n_nan R) else Err IndexError
  end.
End Model.
