(** * The climatological variogram in any arithmetic *)
From Coq Require Import ZArith.
From Verif Require Import Base Num NumList NpOps Libm.

Section V.
Context {O : numops} (L : libm O).

(** interpolator.py:237-260 [clim_var_param] from the day number [jd] on, in the
    order of operations of the source; [h] is [time_scale_hours], [pi] the
    constant of the same name.  Result: sill, range, nugget.  0.0 raised to a
    negative power raises ZeroDivisionError.  Not modelled: negative [h]
    (complex numbers) and the OverflowError of Python's [**] (which needs an
    [h] below 1e-800). *)
Definition clim_var_param_n (pi jd h : O) : res (O * O * O) :=
  if n_eqb h zero then Err ZeroDivisionError else
  let frequency_years := n_div one (n_ofZ 365) in
  let wave day := m_cos L (n_mul (n_mul (n_mul (n_ofZ 2) pi) frequency_years) (n_sub jd day)) in
  let range_m := m_pow L (n_add (n_mul (n_lit 1551 2) (m_pow L h (n_lit 9 2)))
                                (n_mul (n_mul (n_lit 206 2) (m_pow L h (n_lit (-12) 2))) (wave (n_mul (n_lit 737 2) (m_pow L h (n_lit 22 2)))))) (n_ofZ 4) in
  let sill := m_pow L (n_add (n_mul (n_lit 84 2) (m_pow L h (n_lit (-25) 2)))
                             (n_mul (n_mul (n_lit 20 2) (m_pow L h (n_lit (-37) 2))) (wave (n_mul (n_ofZ 162) (m_pow L h (n_lit (-3) 2)))))) (n_ofZ 4) in
  Ok (sill, n_div range_m (n_ofZ 1000), n_mul (n_lit 1 1) sill).
End V.
