(** * Transmission of a plane wave through a stack of layers

    Transfer matrices, the textbook description of normal incidence on plane
    layers.  The state of the field in a medium of refractive index [n] is the
    pair of complex amplitudes (a, b) of the wave that runs forward and the
    one that runs backward.  [interface] carries the pair across a boundary:
    the electric field a + b and the magnetic field n (a - b) are continuous.
    [layer] carries it through a layer of thickness [l].  Behind the stack
    only a forward wave leaves, so the transmitted share of the amplitude is
    1 / M11.  Complex arithmetic is that of Leijnse_model.v. *)
From Coq Require Import Reals.
From Verif Require Import Leijnse_model.
Local Open Scope R_scope.

Record mat : Type := Mat { m11 : cplx; m12 : cplx; m21 : cplx; m22 : cplx }.
Definition mmul (A B : mat) : mat :=
  Mat (cadd (cmul (m11 A) (m11 B)) (cmul (m12 A) (m21 B)))
      (cadd (cmul (m11 A) (m12 B)) (cmul (m12 A) (m22 B)))
      (cadd (cmul (m21 A) (m11 B)) (cmul (m22 A) (m21 B)))
      (cadd (cmul (m21 A) (m12 B)) (cmul (m22 A) (m22 B))).

(** from a medium of index [n] into one of index [n'] *)
Definition interface (n n' : cplx) : mat :=
  let s := cdiv (cadd n n') (cmul (cR 2) n) in
  let d := cdiv (csub n n') (cmul (cR 2) n) in
  Mat s d d s.
(** [k] is the wave number 2 pi f / c in vacuum *)
Definition layer (k : R) (n : cplx) (l : R) : mat :=
  Mat (cexp (copp (cmul (cj (k * l)) n))) (cR 0) (cR 0) (cexp (cmul (cj (k * l)) n)).

(** the antenna cover of thickness [la] alone, and below a water film of
    thickness [lw] *)
Definition dry_cover (k : R) (na : cplx) (la : R) : mat :=
  mmul (mmul (interface (cR 1) na) (layer k na la)) (interface na (cR 1)).
Definition wet_cover (k : R) (nw : cplx) (lw : R) (na : cplx) (la : R) : mat :=
  mmul (mmul (mmul (mmul (interface (cR 1) nw) (layer k nw lw)) (interface nw na)) (layer k na la)) (interface na (cR 1)).

(** share of the power that passes *)
Definition transmitted (M : mat) : R := / (fst (m11 M) * fst (m11 M) + snd (m11 M) * snd (m11 M)).

Definition decibel (x : R) : R := 10 * (ln x / ln 10).
Definition wave_number (f : R) : R := 2 * PI * f / 299792458.
Definition film (gamma delta r : R) : R := gamma * (if Req_EM_T r 0 then 0 else Rpower r delta).
