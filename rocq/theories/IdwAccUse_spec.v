(** * Vocabulary for consequences of the accuracy of maps in binary64 *)
From Coq Require Import List ZArith Reals.
From Flocq Require Import Core IEEE754.BinarySingleNaN.
From Verif Require Import Base Num NumF64 Libm Idw_model Idw_spec HaversineFloat_spec RainFloat_spec IdwSymFloat_spec IdwAcc_spec.
Import ListNotations.
Local Open Scope R_scope.

Definition reals (z : list F64) : list R := map (fun x : F64 => B2R x) z.
Definition rcut (ub : option F64) : option R := option_map (fun w : F64 => B2R w) ub.

(** an accurate power function, a search within its contract, an exponent from 0 to 4,
    and no near ties seen from the places [qs] *)
Record plain_setting (L : libm F64) (e : R) (query : list place -> place -> nat -> F64 -> option F64 -> list (F64 * nat))
    (X qs : list place) (k : nat) (p : F64) (pr : R) (ub : option F64) (t : tree F64) : Prop := {
  ps_pow : pow_accurate L e; ps_e : 0 <= e <= / 1000; ps_search : search_ok query; ps_tree : new_tree X = Ok t;
  ps_places : qs <> []; ps_two : (2 <= k)%nat; ps_few : INR k <= 2 ^ 20; ps_p : is_num p pr; ps_p4 : 0 <= pr <= 4;
  ps_ub : forall w, ub = Some w -> number w;
  ps_apart : forall q, In q qs -> finite_place q /\ well_apart (rpt_of q) (map rpt_of X) (rcut ub) }.

(** one number of size at most [M] for each station *)
Record plain_values (X : list place) (z : list F64) (M : R) : Prop := {
  pv_len : length z = length X; pv_num : forall x, In x z -> number x /\ Rabs (B2R x) <= M; pv_max : M <= 2 ^ 200 }.

(** the bound of C152 *)
Definition map_rounding (M e pr : R) (k : nat) : R := M * (3 * e + (21 * pr + 13 * INR k) / 2 ^ 53) + 4 * INR k / 2 ^ 1074.

(** the distance of the place to station [i] in exact arithmetic *)
Definition far (X : list place) (q : place) (i : nat) : R := dist_to (map rpt_of X) (rpt_of q) i.
