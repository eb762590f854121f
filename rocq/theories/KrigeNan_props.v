(** * Property C137: kriging with exclude_nan=False and missing values *)
From Coq Require Import List ZArith Bool Lia.
From Verif Require Import Base Num NumF64 NumList Idw_model Kriging_model OrdKrige_model KrigeWin_model KrigeNan_spec KrigeNan_proofs.
Import ListNotations.
Local Open Scope nat_scope.

(** one missing station makes the whole field missing *)
Theorem C137_missing_station_spreads :
  forall vg inv (s : kriging F64) x y z rows cols xg yg s' G, inv_keeps_size inv -> k_exclude_nan s = false ->
  (exists v, In v z /\ n_isnan v = true) -> krige_call (pykrige vg inv) s x y z rows cols xg yg = (s', Ok G) ->
  forall v, In v (concat G) -> n_isnan v = true.
Proof. exact (missing_spreads F64sem). Qed.
Print Assumptions C137_missing_station_spreads.

(** while the stored variances look as if nothing were missing *)
Theorem C137_variance_hides_it :
  forall vg inv (s : kriging F64) x y z z' rows cols xg yg s1 G1 s2 G2, k_exclude_nan s = false ->
  forallb n_isnan z = false -> forallb n_isnan z' = false ->
  krige_call (pykrige vg inv) s x y z rows cols xg yg = (s1, Ok G1) -> krige_call (pykrige vg inv) s x y z' rows cols xg yg = (s2, Ok G2) ->
  k_sigma s1 = k_sigma s2.
Proof. exact (@missing_variance F64). Qed.
Print Assumptions C137_variance_hides_it.

(** with n_closest_points a grid point depends on the data of its neighbours only,
    and is missing if one of these is *)
Theorem C137_nearest_only :
  forall vg solve query (s : kriging F64) k x y z rows cols xg yg s' G, solve_keeps_size solve -> query_at_most query -> k_exclude_nan s = false ->
  forallb n_isnan z = false -> krige_call (pykrige_window vg solve query k) s x y z rows cols xg yg = (s', Ok G) ->
  length (concat G) = rows * cols /\
  (forall i j, i < rows * cols -> In j (neighbours query x y k (get n_nan (concat (grid_values xg)) i) (get n_nan (concat (grid_values yg)) i)) -> n_isnan (get n_nan z j) = true ->
     n_isnan (get n_nan (concat G) i) = true) /\
  (forall z' s'' G' i, forallb n_isnan z' = false -> krige_call (pykrige_window vg solve query k) s x y z' rows cols xg yg = (s'', Ok G') -> i < rows * cols ->
     (forall j, In j (neighbours query x y k (get n_nan (concat (grid_values xg)) i) (get n_nan (concat (grid_values yg)) i)) -> get n_nan z' j = get n_nan z j) ->
     get n_nan (concat G') i = get n_nan (concat G) i).
Proof. exact (window_missing F64sem). Qed.
Print Assumptions C137_nearest_only.

(** the inverse of the kriging matrix of two stations 4 apart, for the variogram d *)
Definition C137_B : list (list f64) :=
  let h := f_div #1 #8 in let k := f_div #(-1) #8 in let a := f_div #1 #2 in [[h; k; a]; [k; h; a]; [a; a; #2]].
Definition C137_inv (A : list (list F64)) : res (list (list F64)) := if Nat.eqb (length A) 3 then Ok C137_B else Err OtherError.
Definition C137_solve (A : list (list F64)) (b : list F64) : res (list F64) := if Nat.eqb (length b) 3 then Ok (kweights (O := F64) C137_B b) else Err OtherError.
Definition C137_run z := krige_call (O := F64) (pykrige (O := F64) (fun d => d) C137_inv) (new_kriging false) [#0; #4] [#0; #0] z 1 2 (FloatGrid (O := F64) [[#1; #3]]) (FloatGrid (O := F64) [[#0; #0]]).
Definition C137_near z := krige_call (O := F64) (pykrige_window (O := F64) (fun d => d) C137_solve (brute_query (O := F64)) 2) (new_kriging false) [#0; #4; #8] [#0; #0; #0] z 1 2
  (FloatGrid (O := F64) [[#1; #7]]) (FloatGrid (O := F64) [[#0; #0]]).
Example C137_case_shapes : inv_keeps_size C137_inv /\ solve_keeps_size C137_solve.
Proof.
  split; [intros A B H; unfold C137_inv in H; destruct (Nat.eqb_spec (length A) 3) as [->|]; [injection H as <-; reflexivity|discriminate]|].
  intros A b w H. unfold C137_solve in H. destruct (Nat.eqb_spec (length b) 3) as [->|]; [|discriminate]. assert (E : kweights (O := F64) C137_B b = w) by congruence. rewrite <- E. unfold kweights. rewrite map_length. reflexivity.
Qed.
Lemma brute_query_at_most : query_at_most (O := F64) (brute_query (O := F64)).
Proof.
  intros pts p k eps d. unfold brute_query. rewrite app_length, map_length, repeat_length, firstn_length. lia.
Qed.
Example C137_case_spreads :
  match C137_run [#10; #20], C137_run [#10; fNaN] with
  | (s1, Ok [a]), (s2, Ok [b]) => f_same_list a [f_div #25 #2; f_div #35 #2] && f_same_list b [fNaN; fNaN] &&
      match k_sigma s1, k_sigma s2 with Some u, Some v => f_same_list u v && f_same_list u [f_div #3 #2; f_div #3 #2] | _, _ => false end
  | _, _ => false end = true.
Proof. vm_compute. reflexivity. Qed.
Example C137_case_near :
  match C137_near [#10; #20; #30], C137_near [#10; #20; fNaN] with
  | (_, Ok [a]), (_, Ok [b]) => f_same_list a [f_div #25 #2; f_div #55 #2] && f_same_list b [f_div #25 #2; fNaN]
  | _, _ => false end = true.
Proof. vm_compute. reflexivity. Qed.
