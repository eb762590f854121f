(** * Property C146: in binary64, a constant offset of quantised levels *)
From Coq Require Import List ZArith Bool String Reals Lia.
From Flocq Require Import Core IEEE754.BinarySingleNaN.
From Verif Require Import Base Num NumF64 NumList NpOps Libm Libm64 Baseline_model KR_model NearbyRain_model NearbyWetdry_model NearbyWetdry_props Chain_model Chain_props ShiftFloat_spec ShiftFloat_proofs.
Import ListNotations.
Local Open Scope nat_scope.
Local Notation length := List.length.

(** Levels and offsets that are multiples of 2^-q dB (whole dB for q = 0): the
    classification is the same bit by bit, whatever the offset of each link. *)
Theorem C146_nearby_classification : forall (q : Z) T (cs : list F64) (pmin : list (list F64)) lengths ds radius thrP thrPL ml interval tp mh,
  (-700 <= q <= 700)%Z -> length cs = length pmin -> (forall c, In c cs -> whole_units q c) -> (forall l, In l pmin -> quantised q l) ->
  nearby_wetdry T (moved_each cs pmin) lengths ds radius thrP thrPL ml interval tp mh =
  nearby_wetdry T pmin lengths ds radius thrP thrPL ml interval tp mh.
Proof. exact wetdry_moved. Qed.
Print Assumptions C146_nearby_classification.

(** The reference level moves by the offset bit by bit. *)
Theorem C146_reference_level : forall (q : Z) (c : f64), (-700 <= q <= 700)%Z -> whole_units q c ->
  forall (pmin pmax wet : list F64) n mp, quantised q pmin -> quantised q pmax ->
  nearby_determine_reference_level (moved c pmin) (moved c pmax) wet n mp = (do p <- nearby_determine_reference_level pmin pmax wet n mp; Ok (moved c p)).
Proof. exact reference_moved. Qed.
Print Assumptions C146_reference_level.

(** ... and so is the rain rate. *)
Theorem C146_nearby_rain : forall (q : Z) (c : f64), (-700 <= q <= 700)%Z -> whole_units q c ->
  forall L cubic (pmin pmax wet F : list F64) n mp len f pol a b ap waa alpha thr, quantised q pmin -> quantised q pmax ->
  let rain := fun pmin pmax =>
    do pref <- nearby_determine_reference_level pmin pmax wet n mp;
    let '(cmin, cmax) := nearby_correct_received_signals pmin pmax wet pref in
    nearby_rainfall_retrival L cubic pref cmin cmax F len f pol a b ap waa alpha thr in
  rain (moved c pmin) (moved c pmax) = rain pmin pmax.
Proof. exact nearby_moved. Qed.
Print Assumptions C146_nearby_rain.

(** The baseline with the default n_average_last_dry = 1 follows any offset bit by
    bit, quantised or not. *)
Theorem C146_baseline : forall (c : F64) (trsl wet : list F64), not_minus_zero trsl ->
  baseline_constant (moved c trsl) wet 1 = (do b <- baseline_constant trsl wet 1; Ok (moved c b)).
Proof. exact baseline_moved. Qed.
Print Assumptions C146_baseline.

(** With it, the rain rate of the chain ignores offsets of quantised losses bit by bit. *)
Theorem C146_chain : forall (q : Z) (c : f64), (-700 <= q <= 700)%Z -> whole_units q c ->
  forall L cubic clipped (trsl wet : list F64) m dt tau (k : kr_args F64), quantised q trsl ->
  chain L cubic clipped (moved c trsl) wet 1 m dt tau k = chain L cubic clipped trsl wet 1 m dt tau k.
Proof. exact chain_moved. Qed.
Print Assumptions C146_chain.

(** Tenths of dB are not quantised in this sense, and there an offset changes the rate. *)
Local Notation tenth z := (f_div #z #10).
Definition tenths_differ : bool :=
  match chain F64demo no_cubic true [tenth 500; tenth 647] [#0; #1] 1 #1 #1 #1 demo_args, chain F64demo no_cubic true (moved (tenth 1) [tenth 500; tenth 647]) [#0; #1] 1 #1 #1 #1 demo_args with
  | Ok r, Ok r' => negb (f_same_list r r')
  | _, _ => false
  end.
Lemma tenths_differ_true : tenths_differ = true.
Proof. vm_compute. reflexivity. Qed.
Theorem C146_tenths_refuted : exists (L : libm F64) cubic (trsl wet : list F64) (c m dt tau : F64) (k : kr_args F64) r r',
  chain L cubic true trsl wet 1 m dt tau k = Ok r /\ chain L cubic true (moved c trsl) wet 1 m dt tau k = Ok r' /\ f_same_list r r' = false.
Proof.
  pose proof tenths_differ_true as H. unfold tenths_differ in H.
  exists F64demo, no_cubic, [tenth 500; tenth 647], [#0; #1], (tenth 1), #1, #1, #1, demo_args.
  destruct (chain F64demo no_cubic true [tenth 500; tenth 647] [#0; #1] 1 #1 #1 #1 demo_args) as [r|]; [|discriminate H].
  destruct (chain F64demo no_cubic true (moved (tenth 1) [tenth 500; tenth 647]) [#0; #1] 1 #1 #1 #1 demo_args) as [r'|]; [|discriminate H].
  exists r, r'. split; [reflexivity|]. split; [reflexivity|]. apply negb_true_iff. exact H.
Qed.
Print Assumptions C146_tenths_refuted.

(** whole and half dB are quantised *)
Lemma whole_dB (z : Z) : (Z.abs z <= 2 ^ 48)%Z -> whole_units 0 (#z : f64).
Proof.
  intros H. exists z. split; [exact H|]. split.
  - change (f_val #z) with (val F64sem (n_ofZ z : F64)). rewrite (val_ofZ _ F64sem) by (change (2 ^ 53)%Z with (2 ^ 48 * 32)%Z; lia). cbn [bpow Z.opp]. f_equal. ring.
  - intros Q. destruct (Z.eq_dec z 0) as [->|N]; [discriminate Q|]. assert (E : val F64sem (n_ofZ z : F64) = XFin (IZR z)) by (apply (val_ofZ _ F64sem); change (2 ^ 53)%Z with (2 ^ 48 * 32)%Z; lia).
    change (n_ofZ z : F64) with (#z : f64) in E. rewrite Q in E. cbn in E. injection E as E. apply eq_IZR in E. auto.
Qed.
Example C146_case_quantised : quantised 0 [#50; fNaN; #(-73); #0] /\ whole_units 0 (#7 : f64).
Proof.
  split; [|apply whole_dB; vm_compute; discriminate]. intros x [<-|[<-|[<-|[<-|[]]]]]; try (left; reflexivity); right; apply whole_dB; vm_compute; discriminate.
Qed.
Example C146_case_moved : match baseline_constant [tenth 503; tenth 571; #52] [#0; #1; #0] 1, baseline_constant (moved (tenth 3) [tenth 503; tenth 571; #52]) [#0; #1; #0] 1 with
  | Ok b, Ok b' => f_same_list b [tenth 503; tenth 503; #52] && f_same_list b' [f_add (tenth 503) (tenth 3); f_add (tenth 503) (tenth 3); f_add #52 (tenth 3)] | _, _ => false end = true.
Proof. vm_compute. reflexivity. Qed.

(** With the mean of three dry values the baseline of whole dB is off by a
    rounding error after an offset of 1 dB. *)
Theorem C146_mean_of_three_refuted : exists (trsl wet b b' : list F64),
  (forall x, In x trsl -> exists z : Z, (0 <= z <= 5)%Z /\ x = n_ofZ z) /\
  baseline_constant trsl wet 3 = Ok b /\ baseline_constant (moved (n_ofZ 1) trsl) wet 3 = Ok b' /\
  exists i, i < length b /\ n_ltb (get n_nan (moved (n_ofZ 1) b) i) (get n_nan b' i) = true.
Proof.
  exists (map (fun z => n_ofZ z : F64) [0; 0; 2; 5]%Z), [#0; #0; #0; #1]. do 2 eexists. split; [|split; [reflexivity|split; [reflexivity|]]].
  - intros x Hx. apply in_map_iff in Hx as (z & <- & Hz). exists z. split; auto.
    simpl in Hz. repeat destruct Hz as [<-|Hz]; try lia.
  - exists 3. split; [vm_compute; lia|vm_compute; reflexivity].
Qed.
Print Assumptions C146_mean_of_three_refuted.

(** With levels in tenths of a dB an offset of -3 dB changes wet flags. *)
Theorem C146_tenths_flags_refuted : exists (pmin : list (list F64)) w F w' F',
  (forall l x, In l pmin -> In x l -> exists z : Z, x = n_div (n_ofZ z) (n_ofZ 10)) /\
  nearby_wetdry 8 pmin [#1; #1] (demo_dist 2) #15 thr_P thr_PL 1 60 2 1 = Ok (w, F) /\
  nearby_wetdry 8 (moved_each [#(-3); #(-3)] pmin) [#1; #1] (demo_dist 2) #15 thr_P thr_PL 1 60 2 1 = Ok (w', F') /\
  exists t, n_eqb (get n_nan (get [] w 0) t) #0 = true /\ n_eqb (get n_nan (get [] w' 0) t) #1 = true.
Proof.
  pose (row := map (fun z => n_div (n_ofZ z) (n_ofZ 10) : F64) [-600; -600; -600; -600; -614; -600; -600; -600]%Z).
  exists [row; row]. do 4 eexists. split; [|split; [reflexivity|split; [reflexivity|]]].
  - intros l x [<-|[<-|[]]] Hx; apply in_map_iff in Hx as (z & <- & _); exists z; reflexivity.
  - exists 4. split; vm_compute; reflexivity.
Qed.
Print Assumptions C146_tenths_flags_refuted.
