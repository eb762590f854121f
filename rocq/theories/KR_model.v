(** * Model of /repo/pycomlink/processing/k_R_relation.py *)
From Coq Require Import List ZArith Bool String.
From Verif Require Import Base Num NumList NpOps Libm Itu_table.
Import ListNotations.
Local Open Scope nat_scope.

(** The polarisation argument: a str, or an array of strings. *)
Inductive pol_arg := PolStr (s : string) | PolArr (l : list string).

(** k_R_relation.py:221-222 *)
Definition pol_v_str_variants : list string := ["v"; "V"; "vertical"; "Vertical"]%string.
Definition pol_h_str_variants : list string := ["h"; "H"; "horizontal"; "Horizontal"]%string.
Definition str_isin (l : list string) (s : string) : bool := existsb (String.eqb s) l.

Section KR.
Context {O : numops} (L : libm O).
(** scipy's cubic interpolant through the points [xs, ys], evaluated at a
    point inside the range: an oracle. *)
Variable cubic : list O -> list O -> O -> O.

(** one row of a table as numbers *)
Definition row (t : list (list (Z * nat))) (k : nat) : list O :=
  map (fun p => n_lit (fst p) (snd p)) (get [] t k).

(** [interp1d(xs, ys, kind="cubic")(x)], scipy default [bounds_error]:
    ValueError if some x is below the first or above the last node. *)
Definition interp1d_cubic (xs ys : list O) (x : list O) : res (list O) :=
  if existsb (fun v => n_ltb v (get n_nan xs 0)) x then Err ValueError
  else if existsb (fun v => n_ltb (get n_nan xs (List.length xs - 1)) v) x then Err ValueError
  else Ok (map (cubic xs ys) x).

(** k_R_relation.py:164-264 [a_b] for a 1-D [f_GHz] array.  The xarray
    round trip (203-210, 258-262) keeps values and is not modelled. *)
Definition a_b (f_GHz : list O) (pol : pol_arg) (approx_type : string) : res (list O * list O) :=
  (* 211-213 *)
  let pol := match pol with PolStr s => repeat s (List.length f_GHz) | PolArr l => l end in
  (* 215-216 *)
  if negb (Nat.eqb (List.length f_GHz) (List.length pol)) then Err ValueError else
  (* 224 *)
  do fmin <- np_min f_GHz;
  do fmax <- np_max f_GHz;
  if n_ltb fmin (n_ofZ 1) || n_ltb (n_ofZ 100) fmax then Err ValueError else
  (* 226 *)
  if negb (forallb (str_isin (pol_v_str_variants ++ pol_h_str_variants)) pol) then Err ValueError else
  (* 230-235 *)
  do table <- (if String.eqb approx_type "ITU_2003" then Ok ITU_table_2003
               else if String.eqb approx_type "ITU_2005" then Ok ITU_table_2005
               else Err ValueError);
  (* 237-245 *)
  do a_v <- interp1d_cubic (row table 0) (row table 2) f_GHz;
  do b_v <- interp1d_cubic (row table 0) (row table 4) f_GHz;
  do a_h <- interp1d_cubic (row table 0) (row table 1) f_GHz;
  do b_h <- interp1d_cubic (row table 0) (row table 3) f_GHz;
  (* 247-256 *)
  let mask_v := map (str_isin pol_v_str_variants) pol in
  let mask_h := map (str_isin pol_h_str_variants) pol in
  let nan := repeat n_nan (List.length f_GHz) in
  do a <- mask_assign mask_h (mask_select n_nan mask_h a_h) nan;
  do a <- mask_assign mask_v (mask_select n_nan mask_v a_v) a;
  do b <- mask_assign mask_h (mask_select n_nan mask_h b_h) nan;
  do b <- mask_assign mask_v (mask_select n_nan mask_v b_v) b;
  Ok (a, b).

(** power-law coefficients: a Python float or a 1-D array *)
Inductive coef := CScalar (x : O) | CArr (l : list O).
Definition coef_list (c : coef) : list O := match c with CScalar x => [x] | CArr l => l end.
(** [1 / b]: Python raises for a float zero, numpy does not *)
Definition coef_inv (c : coef) : res (list O) :=
  match c with
  | CScalar x => if n_eqb x zero then Err ZeroDivisionError else Ok [n_div one x]
  | CArr l => Ok (map (n_div one) l)
  end.

(** k_R_relation.py:93-102 and 149-160: the masked power law.  A scalar behaves like a
    length-1 array under broadcasting. *)
Definition power_law (A : list O) (L_km : O) (a b : coef) (R_min : O) : res (list O) :=
  let R := repeat zero (List.length A) in
  let nan_index := map n_isnan A in
  let R := mask_fill nan_index n_nan R in
  let mask := map2 (fun (n : bool) x => negb n && n_leb zero x) nan_index A in
  do q <- bcast2 n_div (mask_select n_nan mask A) (map (fun x => n_mul x L_km) (coef_list a));
  do e <- coef_inv b;
  do p <- bcast2 (m_pow L) q e;
  do R <- mask_assign mask p R;
  Ok (mask_fill (map2 (fun (n : bool) r => negb n && n_ltb r R_min) nan_index R) zero R).

(** k_R_relation.py:14-103 [calc_R_from_A] on a 1-D array [A] (the decorator
    is modelled in Wrapper_model.v).  [None] is Python's None.
    [np.atleast_1d(pol)] turns a str into a length-1 array (82). *)
Definition calc_R_from_A (A : list O) (L_km : O) (f_GHz : option (list O)) (pol : option pol_arg)
    (a b : option coef) (approx : string) (R_min : O) : res (list O) :=
  match f_GHz, pol, a, b with
  | Some f, Some p, None, None =>
      let p := match p with PolStr s => PolArr [s] | PolArr l => PolArr l end in
      do ab <- a_b f p approx;
      power_law A L_km (CArr (fst ab)) (CArr (snd ab)) R_min
  | None, None, Some a, Some b => power_law A L_km a b R_min
  | _, _, _, _ => Err ValueError
  end.

(** k_R_relation.py:106-161 [calc_R_from_A_min_max] on a 1-D array.
    [f_GHz], when given, replaces [a] and [b]; a missing coefficient is a
    TypeError (None * float, float ** None). *)
Definition calc_R_from_A_min_max (Ar_max : list O) (len : O) (f_GHz : option (list O))
    (a b : option coef) (pol : pol_arg) (R_min k : O) : res (list O) :=
  do ab <- (match f_GHz with
            | Some f => do ab <- a_b f pol "ITU_2005"; Ok (CArr (fst ab), CArr (snd ab))
            | None => match a, b with
                      | Some a, Some b => Ok (a, b)
                      | _, _ => Err TypeError
                      end
            end);
  let '(a, b) := ab in
  let g := n_add (m_log L k) (n_lit 57721566 8) in
  do gb <- bcast2 (m_pow L) [g] (coef_list b);
  do a_max <- bcast2 n_mul (coef_list a) gb;
  power_law Ar_max len (CArr a_max) b R_min.
End KR.
Arguments coef : clear implicits.
