(** * Property C139: how measurement errors of the levels pass through the processing *)
From Coq Require Import Reals Lra Lia ZArith Bool List String.
From Verif Require Import Base Num NumF64 NumList Libm Libm64 RealSpec RealStat Baseline_model Baseline_spec Schleiss_spec KR_model KR_spec Chain_model
  HaversineFloat_spec HaversineFloat_proofs FloatErr_spec RainFloat_spec ChainErr_spec ChainErr_proofs ChainErr_props Idw_model Idw_spec MeasErr_spec MeasErr_proofs MeasErr_proofs2.
Import ListNotations.
Local Open Scope R_scope.
Local Notation length := List.length.

(** Baselines: an error of at most [q] in each sample is one of at most [q]. *)
Theorem C139_constant_baseline_exact :
  forall q t1 t2 (wet : list XR) n b1 b2, within q t1 t2 ->
  baseline_constant (xs t1 : list XR) wet n = Ok b1 -> baseline_constant (xs t2 : list XR) wet n = Ok b2 ->
  forall i, (i < length t1)%nat -> near q (get XNaN b1 i) (get XNaN b2 i).
Proof. exact constant_near. Qed.
Print Assumptions C139_constant_baseline_exact.

Theorem C139_linear_baseline_exact :
  forall q t1 t2 (wet : list XR) ignore_nan b1 b2, within q t1 t2 -> length wet = length t1 ->
  baseline_linear (xs t1 : list XR) wet ignore_nan = Ok b1 -> baseline_linear (xs t2 : list XR) wet ignore_nan = Ok b2 ->
  forall i, (i < length t1)%nat -> near q (get XNaN b1 i) (get XNaN b2 i).
Proof. exact linear_near. Qed.
Print Assumptions C139_linear_baseline_exact.

(** The attenuation after baseline and wet antenna correction: at most [2 q],
    not [4 q] as three subtractions suggest. *)
Theorem C139_attenuation_exact :
  forall (wet : list F64) n q T T' B B' top c W W', (1 <= n)%nat -> within q T T' -> 0 <= top -> 0 <= c <= 1 ->
  exact_baseline T wet n B -> exact_baseline T' wet n B' -> exact_waa T B wet top c W -> exact_waa T' B' wet top c W' ->
  forall i, (i < length T)%nat -> Rabs ((rget T' i - rget B' i - rget W' i) - (rget T i - rget B i - rget W i)) <= 2 * q.
Proof. intros wet n q T T' B B' top c W W' N Q H0 HC EB EB' EW EW'. exact (atten_near wet n q T T' B B' N Q EB EB' top c W W' H0 HC EW EW'). Qed.
Print Assumptions C139_attenuation_exact.

(** The documented chain in double precision on measured losses, compared with
    the exact chain on the true ones. *)
Theorem C139_float_chain :
  forall (L : libm F64) cubic e clipped trsl wet Tm T q n M fm dt tau top vdt vtau (k : kr_args F64) a b va vb vl vm B W,
  pow_accurate L e -> pow_mono L -> 0 <= e <= / 1000 ->
  (1 <= n)%nat -> are_nums trsl Tm -> within q T Tm -> length wet = length trsl -> INR n <= 2 ^ 20 -> INR n * INR (length trsl) <= 2 ^ 30 ->
  1 <= M <= 2 ^ 100 -> (forall v, In v Tm -> Rabs v <= M) ->
  is_num fm top -> is_num dt vdt -> is_num tau vtau -> 0 <= top <= M -> / 2 ^ 60 <= vdt <= 2 ^ 60 -> / 2 ^ 60 <= vtau <= 2 ^ 60 -> 3 * vdt / vtau <= 1 ->
  kr_f k = None -> kr_pol k = None -> kr_a k = Some (CScalar a) -> kr_b k = Some (CScalar b) ->
  is_num a va -> is_num b vb -> is_num (kr_len k) vl -> is_num (kr_min k) vm ->
  / 2 ^ 60 <= va <= 2 ^ 60 -> / 2 <= vb <= 2 -> / 2 ^ 60 <= vl <= 2 ^ 60 -> / 2 ^ 18 <= vm -> 5 * M <= va * Rpower (2 ^ 20) vb * vl ->
  exact_baseline T wet n B -> exact_waa T B wet top (3 * vdt / vtau) W ->
  exists R, chain L cubic clipped trsl wet n fm dt tau k = Ok R /\ length R = length trsl /\ forall i, (i < length trsl)%nat ->
    let A := rget T i - rget B i - rget W i in
    let d := 2 * q + INR (i + 1) * (INR n * M / 2 ^ 47) in
    rain_between ((1 - (e + / 2 ^ 48)) * law va vb vl (A - d)) ((1 + (e + / 2 ^ 48)) * law va vb vl (A + d)) vm (get n_nan R i).
Proof. exact chain_measured. Qed.
Print Assumptions C139_float_chain.

(** The bound is reached. *)
Theorem C139_bound_is_sharp :
  forall q, 0 <= q -> exists (wet : list F64) n T T' B B' top c W W' i, (1 <= n)%nat /\ within q T T' /\ 0 <= top /\ 0 <= c <= 1 /\
  exact_baseline T wet n B /\ exact_baseline T' wet n B' /\ exact_waa T B wet top c W /\ exact_waa T' B' wet top c W' /\ (i < length T)%nat /\
  (rget T' i - rget B' i - rget W' i) - (rget T i - rget B i - rget W i) = 2 * q.
Proof.
  intros q Q.
  assert (D0 : ~ flagged_wet [#0; #1] 0) by (unfold flagged_wet; vm_compute; discriminate). assert (D1 : flagged_wet [#0; #1] 1) by (unfold flagged_wet; vm_compute; auto).
  assert (F1 : flag_is_one [#0; #1] 1) by (unfold flag_is_one; vm_compute; auto).
  assert (EB : forall x y, exact_baseline [x; y] [#0; #1] 1 [x; x]).
  { intros x y. split; [reflexivity|]. intros i Hi. simpl in Hi. assert (i = 0 \/ i = 1)%nat as [-> | ->] by lia.
    - split; [reflexivity|]. split; intros; lia.
    - split; [intros [H|H]; [lia|contradiction]|]. split; [intros _ _ H; contradiction|]. intros _ _ _. unfold rget, slice, rmean. simpl. lra. }
  assert (EW : forall x y, x <= y -> exact_waa [x; y] [x; x] [#0; #1] 0 0 [0; 0]).
  { intros x y XY. split; [reflexivity|]. split; [reflexivity|]. intros i Hi. simpl in Hi. assert (i = 1)%nat as -> by lia. split; [intros H; contradiction|intros _].
    unfold rget; simpl. rewrite (Rmin_right (y - x) 0) by lra. rewrite Rmin_left; lra. }
  exists [#0; #1], 1%nat, [0; 10], [- q; 10 + q], [0; 0], [- q; - q], 0, 0, [0; 0], [0; 0], 1%nat.
  split; [lia|]. split.
  { split; [reflexivity|]. intros i Hi. simpl in Hi. assert (i = 0 \/ i = 1)%nat as [-> | ->] by lia; unfold rget; simpl; apply Rabs_le; lra. }
  split; [lra|]. split; [lra|]. split; [apply EB|]. split; [apply EB|]. split; [apply EW; lra|]. split; [apply EW; lra|]. split; [simpl; lia|]. unfold rget. simpl. lra.
Qed.
Print Assumptions C139_bound_is_sharp.

(** Rain maps: inverse distance weighting does not enlarge errors of the data. *)
Theorem C139_idw_exact :
  forall q query (X qs : list rpt) k (p : R) ub t z z' v v',
  query_ok query -> new_tree (map ofP X) = Ok t -> qs <> [] -> (2 <= k)%nat -> length z = length X -> within q z z' ->
  snd (tree_call XRm query t (map ofP qs) (ofR z) k zero (XFin p : XR) (ofU ub)) = Ok v ->
  snd (tree_call XRm query t (map ofP qs) (ofR z') k zero (XFin p : XR) (ofU ub)) = Ok v' ->
  forall j, (j < length qs)%nat -> near q (get (n_nan : XR) v j) (get (n_nan : XR) v' j).
Proof. exact idw_near. Qed.
Print Assumptions C139_idw_exact.

(** the record of C138 as measured with a quantisation of 1 dB: true losses 50.3 49.6 60.4 59.7,
    measured 50 50 60 60 *)
Example C139_case : within (/ 2) [50.3; 49.6; 60.4; 59.7] [50; 50; 60; 60].
Proof. split; [reflexivity|]. intros i Hi. simpl in Hi. assert (i = 0 \/ i = 1 \/ i = 2 \/ i = 3)%nat as [-> | [-> | [-> | ->]]] by lia; unfold rget; simpl; apply Rabs_le; lra. Qed.
(** true attenuation in the third step 60.4 - 49.95 - 0.4 = 10.05 dB, computed 9.6 dB *)
Example C139_case_baseline : exact_baseline [50.3; 49.6; 60.4; 59.7] [#0; #0; #1; #1] 2 [50.3; 49.6; 49.95; 49.95].
Proof.
  assert (D0 : ~ flagged_wet [#0; #0; #1; #1] 0) by (unfold flagged_wet; vm_compute; discriminate). assert (D1 : ~ flagged_wet [#0; #0; #1; #1] 1) by (unfold flagged_wet; vm_compute; discriminate).
  assert (D2 : flagged_wet [#0; #0; #1; #1] 2) by (unfold flagged_wet; vm_compute; auto). assert (D3 : flagged_wet [#0; #0; #1; #1] 3) by (unfold flagged_wet; vm_compute; auto).
  split; [reflexivity|]. intros i Hi. simpl in Hi. assert (i = 0 \/ i = 1 \/ i = 2 \/ i = 3)%nat as [-> | [-> | [-> | ->]]] by lia.
  - split; [reflexivity|]. split; intros; [lia|lia].
  - split; [reflexivity|]. split; intros; [lia|lia].
  - split; [intros [H|H]; [lia|contradiction]|]. split; [intros _ _ H; contradiction|]. intros _ _ _. unfold rget, slice, rmean. simpl. lra.
  - split; [intros [H|H]; [lia|contradiction]|]. split; [reflexivity|]. intros _ _ H. contradiction.
Qed.
