(** * Rain maps: from the links to the map *)
From Coq Require Import List ZArith Bool Reals Lia Lra.
From Flocq Require Import Core BinarySingleNaN.
From Verif Require Import Base Num NumF64 NumList NpOps Libm Libm64 Idw_model Idw_spec Idw_proofs3 Baseline_model Baseline_spec KR_model KR_spec KR_proofs Chain_model Chain_spec
  Chain_proofs BaselineFloat_proofs Workflow_model Workflow_spec Workflow_proofs RainMap_model RainMap_spec RainMap_proofs.
Import ListNotations.
Local Open Scope nat_scope.
Local Notation length := List.length.

Section Gen.
Context {O : numops} (S : numsem O) (L : libm O).
Variable cubic : list O -> list O -> O -> O.
Variable std : list O -> O.
Notation "l .[ i ]" := (get (n_nan : O) l i) (at level 2, left associativity, format "l .[ i ]").

(** ** sums and means *)
Lemma nonneg_rom (x : O) : nonneg x <-> rain_or_missing x /\ n_isnan x = false.
Proof using S.
  unfold rain_or_missing, missing, nonneg. split.
  - intros H. split; auto. apply (leb_nan S) in H. tauto.
  - intros [[H|H] N]; congruence.
Qed.
Lemma nonneg_add (x y : O) : nonneg x -> nonneg y -> nonneg (n_add x y).
Proof using S.
  intros H K. apply nonneg_rom. split; [apply (rom_add S); right; auto|].
  unfold nonneg in *. rewrite (val_leb _ S), (val_0 S) in H, K. rewrite (val_isnan _ S), (val_add _ S), (rnd_nan _ S).
  destruct (val S x), (val S y); cbn in *; auto; discriminate.
Qed.
Lemma nonneg_fold l : forall a : O, nonneg a -> (forall v, In v l -> nonneg v) -> nonneg (fold_left n_add l a).
Proof using S.
  induction l as [|v l IH]; intros a Ha H; auto. cbn [fold_left]. apply IH; [apply nonneg_add; auto; apply H; left; auto|intros; apply H; right; auto].
Qed.
Lemma nonneg_zero : nonneg (zero : O).
Proof using S. apply (leb_refl S). apply (isnan_ofZ S). simpl; lia. Qed.
Lemma not_missing_nonneg (l : list O) : (forall v, In v l -> rain_or_missing v) -> forall v, In v (not_missing l) -> nonneg v.
Proof using S.
  intros H v Hv. apply filter_In in Hv as [Hv N]. apply nonneg_rom. split; auto. apply negb_true_iff in N. exact N.
Qed.
Lemma total_nonneg (l : list O) : (forall v, In v l -> rain_or_missing v) -> nonneg (rain_total l).
Proof using S. intros H. apply nonneg_fold; [apply nonneg_zero|apply not_missing_nonneg; auto]. Qed.
Lemma mean_rom (l : list O) : (Z.of_nat (length l) <= 2 ^ 53)%Z -> (forall v, In v l -> rain_or_missing v) -> rain_or_missing (n_mean l).
Proof using S.
  intros HB H. unfold n_mean. assert (HS : rain_or_missing (n_sum l)) by (apply (rom_sum S); [apply (rom_zero S)|auto]).
  assert (VN : val S (n_ofZ (Z.of_nat (length l))) = XFin (IZR (Z.of_nat (length l)))) by (apply (val_ofZ _ S); lia).
  apply (rom_x S). apply (rom_x S) in HS. destruct (Nat.eq_dec (length l) 0) as [E|NE].
  - destruct l; [|discriminate]. destruct (val_div0 _ S (n_sum []) (n_ofZ (Z.of_nat (length (@nil O))))) as [A _].
    + exact VN.
    + left. rewrite A; [reflexivity|]. right. apply (val_0 S).
  - assert (P : (0 < IZR (Z.of_nat (length l)))%R) by (apply IZR_lt; lia).
    rewrite (val_div _ S) by (rewrite VN; intros K; injection K; lra). apply (xrom_rnd S). rewrite VN. unfold xrom in *.
    destruct (val S (n_sum l)) as [| |a|]; cbn in *; auto; destruct HS as [HS|HS]; try discriminate; rewrite ?Req_bool_false by lra.
    + right. cbn. destruct (Rle_bool_spec 0 a); try discriminate. apply Rle_bool_true. apply Rmult_le_pos; [lra|left; apply Rinv_0_lt_compat; lra].
    + right. rewrite Rlt_bool_false by lra. reflexivity.
Qed.
Lemma in_hour_In hours h (r : list O) v : In v (in_hour hours h r) -> In v r.
Proof using. intros H. apply in_map_iff in H as ([a b] & <- & H). apply filter_In in H as [H _]. apply in_combine_r in H. exact H. Qed.
Lemma filter_le {A} (f : A -> bool) l : length (filter f l) <= length l.
Proof using. induction l; cbn; auto. destruct (f a); cbn; lia. Qed.
Lemma hourly_rom hours count (r : list O) : (Z.of_nat (length r) <= 2 ^ 53)%Z -> (forall v, In v r -> rain_or_missing v) ->
  forall v, In v (hourly hours count r) -> rain_or_missing v.
Proof using S.
  intros HB H v Hv. apply in_map_iff in Hv as (h & <- & _). apply mean_rom.
  - unfold not_missing, in_hour. pose proof (filter_le (fun v => negb (n_isnan v)) (map snd (filter (fun e => Nat.eqb (fst e) h) (combine hours r)))) as A.
    rewrite map_length in A. pose proof (filter_le (fun e : nat * O => Nat.eqb (fst e) h) (combine hours r)) as B. rewrite combine_length in B. lia.
  - intros v Hv. apply filter_In in Hv as [Hv _]. apply in_hour_In in Hv. auto.
Qed.

(** ** one link *)
Variables (q : map_par O) (times : list O).
Notation reliable := (reliable std q times).
Lemma no_flags tsl rsl : length rsl = length tsl ->
  (forall t, t < length tsl -> n_isinf (get n_nan tsl t) = false /\ n_isinf (get n_nan rsl t) = false) ->
  1 <= rp_window (mp_raw q) -> (forall t, t < length tsl -> ~ measured (rp_fill_t (mp_raw q)) (rp_fill_r (mp_raw q)) tsl rsl t) ->
  forall v, In v (wet_flags std (rp_window (mp_raw q)) (rp_threshold (mp_raw q)) (prepared (mp_raw q) times tsl rsl)) -> n_eqb v one = false.
Proof using S.
  intros HL HI Hw M v Hv. apply In_get with (d := n_nan) in Hv as (t & Hlt & <-). rewrite wf_length in Hlt. rewrite wf_get by auto.
  destruct (n_ltb (rp_threshold (mp_raw q)) (rolling_std std (rp_window (mp_raw q)) (prepared (mp_raw q) times tsl rsl) t)) eqn:F.
  - exfalso. assert (FW : flagged_wet (wet_flags std (rp_window (mp_raw q)) (rp_threshold (mp_raw q)) (prepared (mp_raw q) times tsl rsl)) t).
    { unfold flagged_wet. rewrite wf_get by auto. rewrite F. apply (one_wet S). }
    destruct (wf_wet S std _ _ _ t Hlt FW t) as [_ V].
    { split; [lia|]. assert (rp_window (mp_raw q) / 2 < rp_window (mp_raw q)) by (apply Nat.div_lt; lia). lia. }
    rewrite loss_length in Hlt by auto.
    destruct (valid_bridged S (mp_raw q) times tsl rsl HL HI t Hlt V) as [B|(i & j & (G1 & G2 & G3 & _) & _)]; [apply (M t); auto|apply (M i); auto; lia].
  - rewrite (val_eqb _ S). unfold zero, one. rewrite !(val_ofZ _ S) by (simpl; lia). apply Req_bool_false. lra.
Qed.
Hypotheses (sane : pow_sane L) (Hn : 1 <= mp_n q) (Ht : n_eqb (mp_tau q) (n_ofZ 0) = false).
Notation link_hours := (link_hours L cubic std q times).
Notation link_total := (link_total L cubic std q times).
Notation link_hour := (link_hour L cubic std q times).

Lemma link_hours_ok k : good_link k -> exists h, link_hours k = Ok h /\ (forall v, In v h -> rain_or_missing v) /\
  ((forall t, t < length (lk_tsl k) -> ~ measured (rp_fill_t (mp_raw q)) (rp_fill_r (mp_raw q)) (lk_tsl k) (lk_rsl k) t) -> forall v, In v h -> missing v).
Proof using S sane Hn Ht.
  intros ([HL HI] & Hk & HB). unfold RainMap_model.link_hours.
  destruct (workflow_total S L cubic std (mp_raw q) times (lk_tsl k) (lk_rsl k) HL HI sane (mp_n q) (mp_waa_max q) (mp_delta_t q) (mp_tau q) (lk_kr k) Hk Hn Ht)
    as (R & E & LR & H).
  rewrite E. cbn [bind]. exists (hourly (mp_hours q) (mp_count q) R). split; auto. split.
  - apply hourly_rom; [rewrite LR; auto|]. intros v Hv. apply In_get with (d := n_nan) in Hv as (t & Hlt & <-). apply H. lia.
  - intros M v Hv. apply in_map_iff in Hv as (h & <- & _).
    assert (EM : not_missing (in_hour (mp_hours q) h R) = []).
    { destruct (not_missing (in_hour (mp_hours q) h R)) as [|v l] eqn:EE; auto. exfalso.
      assert (Hv : In v (not_missing (in_hour (mp_hours q) h R))) by (rewrite EE; left; auto).
      apply filter_In in Hv as [Hv N]. apply in_hour_In in Hv. apply In_get with (d := n_nan) in Hv as (t & Hlt & <-).
      destruct (H t) as [_ B]; [lia|]. destruct B as [B|(i & j & (G1 & G2 & G3 & _) & _)].
      - intros K. unfold missing in K. rewrite K in N. discriminate.
      - apply (M t); auto. lia.
      - apply (M i); auto. lia. }
    rewrite EM. unfold missing, n_mean. rewrite (val_isnan _ S). destruct (val_div0 _ S (n_sum []) (n_ofZ (Z.of_nat (length (@nil O))))) as [A _]; [apply (val_0 S)|].
    rewrite A; [reflexivity|]. right. apply (val_0 S).
Qed.
Lemma link_total_ok k : good_link k -> exists v, link_total k = Ok v /\ rain_or_missing v /\ (missing v <-> reliable k = false).
Proof using S sane Hn Ht.
  intros G. destruct (link_hours_ok k G) as (h & E & H & _). unfold RainMap_model.link_total. rewrite E. cbn [bind]. eexists. split; [reflexivity|].
  unfold where_reliable. fold (reliable k).
  pose proof (total_nonneg h H) as T. destruct (reliable k).
  - split; [right; auto|]. split; [|discriminate]. apply nonneg_rom in T. unfold missing. destruct T; congruence.
  - split; [apply (rom_nan S)|]. split; auto. intros _. apply (isnan_nan S).
Qed.
Lemma link_hour_ok i k : good_link k -> exists v, link_hour i k = Ok v /\ rain_or_missing v /\ (reliable k = false -> missing v).
Proof using S sane Hn Ht.
  intros G. destruct (link_hours_ok k G) as (h & E & H & _). unfold RainMap_model.link_hour. rewrite E. cbn [bind]. eexists. split; [reflexivity|].
  unfold where_reliable. fold (reliable k). destruct (reliable k).
  - split; [apply (rom_get S); auto|discriminate].
  - split; [apply (rom_nan S)|]. intros _. apply (isnan_nan S).
Qed.

(** ** a link that measured nothing *)
Lemma silent_link k : good_link k -> 1 <= rp_window (mp_raw q) -> 1 <= length (lk_tsl k) -> positive (mp_limit q) ->
  (forall c, In c ((lk_tsl k, lk_rsl k) :: lk_others k) -> silent (mp_raw q) c) ->
  link_total k = Ok zero /\ forall i, exists v, link_hour i k = Ok v /\ missing v.
Proof using S sane Hn Ht.
  intros G Hw Hl Hp SI. pose proof G as (_ & _ & HB). pose proof (proj2 (SI _ (or_introl eq_refl))) as M. cbn [fst snd] in M.
  destruct (link_hours_ok k G) as (h & E & H & HM). specialize (HM M).
  unfold RainMap_model.link_total, RainMap_model.link_hour. rewrite E. cbn [bind].
  assert (R : reliable k = true).
  { unfold reliable. assert (W : forall v, In v (List.concat (wet_channels std q times k)) -> n_eqb v one = false).
    { intros v Hv. apply in_concat in Hv as (f & Hf & Hv). apply in_map_iff in Hf as (c & <- & Hc). destruct (SI c Hc) as [[HL HI] HS].
      eapply no_flags; eauto. }
    unfold wet_fraction. set (all := List.concat (wet_channels std q times k)) in *. clearbody all.
    replace (filter (fun v : O => n_eqb v one) all) with (@nil O).
    2:{ symmetry. destruct (filter (fun v : O => n_eqb v one) all) as [|v l] eqn:EE; auto. exfalso.
        assert (Hv : In v (filter (fun v : O => n_eqb v one) all)) by (rewrite EE; left; auto).
        apply filter_In in Hv as [Hv K]. rewrite W in K by auto. discriminate. }
    assert (VN : val S (n_ofZ (Z.of_nat (length (lk_tsl k)))) = XFin (IZR (Z.of_nat (length (lk_tsl k))))) by (apply (val_ofZ _ S); lia).
    assert (P : (0 < IZR (Z.of_nat (length (lk_tsl k))))%R) by (apply IZR_lt; lia).
    unfold positive in Hp. rewrite (val_ltb _ S), (val_0 S) in Hp. rewrite (val_ltb _ S).
    rewrite (val_div _ S) by (rewrite VN; intros K; injection K; lra). cbn [length Z.of_nat]. rewrite VN, (val_0 S). unfold xdiv. rewrite Req_bool_false by lra.
    replace (0 / IZR (Z.of_nat (length (lk_tsl k))))%R with 0%R by (unfold Rdiv; ring). rewrite (rnd_0 S). exact Hp. }
  assert (NM : not_missing h = []).
  { destruct (not_missing h) as [|v l] eqn:EE; auto. exfalso. assert (Hv : In v (not_missing h)) by (rewrite EE; left; auto).
    apply filter_In in Hv as [Hv N]. specialize (HM v Hv). unfold missing in HM. rewrite HM in N. discriminate. }
  unfold where_reliable. fold (reliable k). rewrite R. split.
  - unfold rain_total. rewrite NM. reflexivity.
  - intros i. eexists. split; [reflexivity|]. unfold nget. destruct (le_lt_dec (length h) i).
    + unfold missing, get. rewrite nth_overflow by auto. apply (isnan_nan S).
    + apply HM. apply get_In. auto.
Qed.

(** ** the map *)
Variable query : list (O * O) -> O * O -> nat -> O -> option O -> list (O * nat).
Variable value : link O -> res O.
Notation map_of := (rain_map L query value).
Hypothesis HV : forall k, good_link k -> exists v, value k = Ok v /\ rain_or_missing v /\ (reliable k = false -> missing v).
Lemma all_links_ok (links : list (link O)) : (forall k, In k links -> good_link k) ->
  exists z, all_links value links = Ok z /\ length z = length links /\ (forall v, In v z -> rain_or_missing v).
Proof using HV.
  induction links as [|k links IH]; intros H.
  - exists []. split; [reflexivity|]. split; [reflexivity|]. intros v [].
  - destruct (HV k (H k (or_introl eq_refl))) as (v & E & R & _). destruct IH as (z & EZ & LZ & RZ); [intros; apply H; right; auto|].
    exists (v :: z). cbn [all_links]. rewrite E, EZ. cbn [bind length]. split; auto. split; [auto|]. intros u [<-|Hu]; auto.
Qed.
Lemma map_total c links rows cols xg yg : weights_sane L (cf_p c) -> distances_ok query -> 2 <= cf_nnear c -> (forall k, In k links -> good_link k) ->
  all_finite (map lk_lon links) -> all_finite (map lk_lat links) -> rectangular rows cols xg -> rectangular rows cols yg ->
  all_finite (List.concat xg) -> all_finite (List.concat yg) -> 0 < rows -> 0 < cols ->
  exists g, map_of c links rows cols xg yg = Ok g /\ rectangular rows cols g /\ forall row v, In row g -> In v row -> rain_or_missing v.
Proof using S HV.
  intros HW HQ Hk HG Fx Fy RX RY FX FY Hr Hc. destruct (all_links_ok links HG) as (z & E & LZ & RZ). unfold rain_map. rewrite E. cbn [bind].
  assert (EX : exists g, snd (interp_call L query (new_interp c) (map lk_lon links) (map lk_lat links) z rows cols xg yg) = Ok g /\ rectangular rows cols g).
  { destruct (forallb n_isnan z) eqn:N.
    - exists (repeat (repeat n_nan cols) rows). split.
      + rewrite interp_all_nan; [reflexivity|rewrite map_length; auto|rewrite map_length; auto|]. apply forallb_forall. exact N.
      + split; [apply repeat_length|]. intros r Hr'. apply repeat_spec in Hr'. subst. apply repeat_length.
    - destruct (interp_result L query c (map lk_lon links) (map lk_lat links) z rows cols xg yg) as (g & G1 & G2 & _); auto; try (rewrite map_length; auto).
      + destruct (cf_exclude_nan c); auto. intros v Hv. apply in_map_iff in Hv as ([a b] & <- & Hv). apply filter_In in Hv as [Hv _]. apply in_combine_l in Hv. auto.
      + destruct (cf_exclude_nan c); auto. intros v Hv. apply in_map_iff in Hv as ([a b] & <- & Hv). apply filter_In in Hv as [Hv _]. apply in_combine_l in Hv. auto.
      + exists g. auto. }
  destruct EX as (g & G1 & G2). exists g. split; auto. split; auto. eapply (rom_cells S L query); eauto.
Qed.

Lemma present_filter (f : link O -> O) links : (forall k, In k links -> good_link k) -> forall z, all_links value links = Ok z ->
  exists z', all_links value (filter reliable links) = Ok z' /\ length z' = length (filter reliable links) /\ length z = length links /\
    present z (map f links) = present z' (map f (filter reliable links)) /\ present z z = present z' z'.
Proof using HV.
  induction links as [|k links IH]; intros H z E.
  - injection E as <-. exists []. cbn. auto.
  - destruct (HV k (H k (or_introl eq_refl))) as (v & EV & R & M). cbn [all_links] in E. rewrite EV in E. cbn [bind] in E.
    destruct (all_links value links) as [z1|] eqn:E1; [|discriminate]. cbn [bind] in E. injection E as <-.
    destruct (IH (fun k' Hk' => H k' (or_intror Hk')) z1 eq_refl) as (z' & A & B & C & D & F). unfold present in *. cbn [filter map combine fst snd].
    destruct (reliable k) eqn:RK.
    + exists (v :: z'). cbn [all_links]. rewrite EV, A. cbn [bind length map combine filter fst snd].
      split; auto. split; [auto|]. split; [auto|]. destruct (negb (n_isnan v)); cbn [map fst]; rewrite ?D, ?F; auto.
    + assert (N : n_isnan v = true) by (apply M; auto). rewrite N. cbn [negb length]. exists z'. auto.
Qed.
Lemma all_nan_present (z : list O) : forallb n_isnan z = true <-> present z z = [].
Proof using.
  unfold present. induction z as [|v z IH]; [split; reflexivity|]. cbn [forallb combine filter snd]. destruct (n_isnan v); cbn [andb negb map]; [exact IH|].
  split; discriminate.
Qed.
Lemma unreliable_left_out c links rows cols xg yg : cf_exclude_nan c = true -> (forall k, In k links -> good_link k) ->
  map_of c links rows cols xg yg = map_of c (filter reliable links) rows cols xg yg.
Proof using HV.
  intros HE HG. destruct (all_links_ok links HG) as (z & E & _). unfold rain_map. rewrite E. cbn [bind].
  destruct (present_filter lk_lon links HG z E) as (z' & A & B & C & D & F). destruct (present_filter lk_lat links HG z E) as (z2 & A2 & _ & _ & D2 & _).
  rewrite A in A2. injection A2 as <-. rewrite A. cbn [bind].
  destruct (forallb n_isnan z) eqn:N.
  - pose proof N as N'. apply all_nan_present in N'. rewrite F in N'. apply all_nan_present in N'.
    rewrite !interp_all_nan; [reflexivity| | | | | |]; rewrite ?map_length; auto; apply forallb_forall; auto.
  - assert (N' : forallb n_isnan z' = false).
    { destruct (forallb n_isnan z') eqn:K; auto. apply all_nan_present in K. rewrite <- F in K. apply all_nan_present in K. congruence. }
    rewrite (interp_exclude_nan L query c (new_interp c) (map lk_lon links) (map lk_lat links) z) by (rewrite ?map_length; auto).
    rewrite (interp_exclude_nan L query c (new_interp c) (map lk_lon (filter reliable links)) (map lk_lat (filter reliable links)) z') by (rewrite ?map_length; auto).
    rewrite D, D2, F. reflexivity.
Qed.
End Gen.

Lemma all_links_rel {O : numops} (value value' : link O -> res O) links : (forall k, In k links -> exists v v', value k = Ok v /\ value' k = Ok v' /\
    (missing v <-> missing v') /\ le_or_missing v v') ->
  exists z z', all_links value links = Ok z /\ all_links value' links = Ok z' /\ length z' = length z /\
    forall j, j < length z -> n_isnan (nget z' j) = n_isnan (nget z j) /\ weakly (nget z j) (nget z' j).
Proof.
  induction links as [|k links IH]; intros H.
  - exists [], []. split; [reflexivity|]. split; [reflexivity|]. split; [reflexivity|]. intros j Hj. inversion Hj.
  - destruct (H k (or_introl eq_refl)) as (v & v' & E & E' & M & W). destruct IH as (z & z' & EZ & EZ' & LZ & HZ); [intros; apply H; right; auto|].
    exists (v :: z), (v' :: z'). cbn [all_links]. rewrite E, E', EZ, EZ'. cbn [bind length]. split; auto. split; auto. split; [auto|].
    intros [|j] Hj.
    + change (nget (v :: z) 0) with v. change (nget (v' :: z') 0) with v'. unfold missing in M. unfold le_or_missing, missing in W. unfold weakly.
      split; [apply eq_true_iff_eq; tauto|tauto].
    + apply HZ. apply Nat.succ_lt_mono. exact Hj.
Qed.

(** ** the wet fraction *)
Lemma fraction_adds steps (a : list XR) (rest : list (list XR)) : 0 < steps ->
  wet_fraction steps (a :: rest) = n_add (wet_fraction steps [a]) (wet_fraction steps rest).
Proof.
  intros H. unfold wet_fraction. cbn [List.concat]. rewrite app_nil_r, filter_app, app_length, Nat2Z.inj_add.
  set (p := length (filter _ a)). set (r := length (filter _ (List.concat rest))). clearbody p r.
  assert (P : (0 < IZR (Z.of_nat steps))%R) by (apply IZR_lt; lia).
  change (xdiv (XFin (IZR (Z.of_nat p + Z.of_nat r))) (XFin (IZR (Z.of_nat steps))) =
    xadd (xdiv (XFin (IZR (Z.of_nat p))) (XFin (IZR (Z.of_nat steps)))) (xdiv (XFin (IZR (Z.of_nat r))) (XFin (IZR (Z.of_nat steps))))).
  unfold xdiv. rewrite Req_bool_false by lra. cbn [xadd]. f_equal. rewrite plus_IZR. field. lra.
Qed.

(** ** binary64: the assumption about the weights *)
Lemma f_of_xr_zero r : rnd64 r = 0%R -> f_of_xr (XFin r) = B754_zero false.
Proof.
  intros H. unfold f_of_xr. rewrite H, Rabs_R0, Rlt_bool_true by apply bpow_gt_0. unfold scaled_mantissa. rewrite Rmult_0_l, Ztrunc_IZR. reflexivity.
Qed.
Lemma xpow_nonneg d p : xleb (XFin 0) d = true -> xisnan (xpow d p) = true \/ xleb (XFin 0) (xpow d p) = true.
Proof.
  intros H. destruct d as [| |a|]; try discriminate; destruct p as [| |b|]; cbn; auto.
  all: cbn in H; try (destruct (Rle_bool_spec 0 a) as [HA|]; try discriminate); unfold xisnan, xleb;
    repeat (match goal with |- context [Rlt_bool ?a ?b] => destruct (Rlt_bool_spec a b) | |- context [Req_bool ?a ?b] => destruct (Req_bool_spec a b) end);
    try (right; apply Rle_bool_true; lra); auto; try lra.
  right. apply Rle_bool_true. left. apply Rpower_pos.
Qed.
Lemma not_negative_x (x : F64) : not_negative x <-> xisnan (f_val x) = true \/ xleb (XFin 0) (f_val x) = true.
Proof.
  unfold not_negative. rewrite (val_ltb _ F64sem), (val_0 F64sem). change (val F64sem x) with (f_val x).
  destruct (f_val x) as [| |r|]; cbn; split; auto; try discriminate; try (intros [K|K]; discriminate).
  - intros H. right. apply Rle_bool_true. destruct (Rlt_bool_spec r 0); [discriminate|auto].
  - intros [K|K]; [discriminate|]. destruct (Rle_bool_spec 0 r); [|discriminate]. apply Rlt_bool_false. auto.
Qed.
Lemma xpow_nan p : xisnan (xpow XNaN p) = true \/ xleb (XFin 0) (xpow XNaN p) = true.
Proof.
  destruct p; cbn; auto; repeat (match goal with |- context [Req_bool ?a ?b] => destruct (Req_bool_spec a b); cbn end); auto.
  right. apply Rle_bool_true. lra.
Qed.
Lemma weights_sane_cr p : weights_sane F64cr p.
Proof.
  intros d [Hd _]. apply not_negative_x in Hd.
  change (m_pow F64cr d p) with (f_of_xr (xpow (f_val d) (f_val p)) : F64). set (x := xpow (f_val d) (f_val p)).
  assert (HX : xisnan x = true \/ xleb (XFin 0) x = true) by (destruct Hd as [Hd|Hd]; [|apply xpow_nonneg; auto]; unfold x; destruct (f_val d); try discriminate Hd; apply xpow_nan). clearbody x.
  unfold not_negative. destruct x as [| |r|]; try (destruct HX; discriminate).
  - rewrite (val_ltb _ F64sem), (val_div _ F64sem) by (change (f_val (f_of_xr XNaN) <> XFin 0); rewrite f_of_xr_val; discriminate).
    change (val F64sem (f_of_xr XNaN)) with (f_val (f_of_xr XNaN)). rewrite f_of_xr_val. cbn [f_rnd].
    assert (xisnan (rnd F64sem (xdiv (val F64sem (n_ofZ 1)) XNaN)) = true) as K by (rewrite (rnd_nan _ F64sem); destruct (val F64sem (n_ofZ 1)); reflexivity).
    destruct (rnd F64sem (xdiv (val F64sem (n_ofZ 1)) XNaN)); try discriminate. reflexivity.
  - destruct HX as [HX|HX]; [discriminate|]. cbn in HX. destruct (Rle_bool_spec 0 r) as [Hr|]; try discriminate.
    destruct (Req_dec (rnd64 r) 0) as [Z|NZ].
    + rewrite (f_of_xr_zero r Z). reflexivity.
    + assert (V : f_val (f_of_xr (XFin r)) <> XFin 0).
      { rewrite f_of_xr_val. unfold f_rnd. destruct (Rlt_bool _ _); [intros K; injection K; auto|destruct (Rlt_bool _ 0); discriminate]. }
      rewrite (val_ltb _ F64sem), (val_div _ F64sem) by exact V. rewrite (val_0 F64sem).
      change (val F64sem (f_of_xr (XFin r))) with (f_val (f_of_xr (XFin r))). rewrite (val_ofZ _ F64sem) by (simpl; lia).
      assert (P : xleb (XFin 0) (f_val (f_of_xr (XFin r))) = true).
      { rewrite f_of_xr_val. rewrite <- (rnd_0 F64sem). apply f_rnd_mono. cbn. apply Rle_bool_true. auto. }
      assert (Q : xleb (XFin 0) (rnd F64sem (xdiv (XFin 1) (f_val (f_of_xr (XFin r))))) = true).
      { rewrite <- (rnd_0 F64sem). apply (rnd_mono _ F64sem). destruct (f_val (f_of_xr (XFin r))) as [| |s|]; try discriminate P; cbn.
        - cbn in P. destruct (Rle_bool_spec 0 s); try discriminate. rewrite Req_bool_false by congruence. apply Rle_bool_true.
          apply Rmult_le_pos; [lra|]. left. apply Rinv_0_lt_compat. destruct (Req_dec s 0); [congruence|lra].
        - apply Rle_bool_true. lra. }
      destruct (rnd F64sem (xdiv (XFin 1) (f_val (f_of_xr (XFin r))))) as [| |s|]; try discriminate Q; cbn; auto.
      cbn in Q. destruct (Rle_bool_spec 0 s); try discriminate. apply Rlt_bool_false. auto.
  - reflexivity.
Qed.

(** ** binary64: the search by brute force returns distances *)
Definition plus_sign (x : f64) : Prop := is_nan x = true \/ Bsign x = false.
Lemma plus_sign_distance (x : F64) : plus_sign x -> distance x.
Proof.
  intros [H|H]; destruct x as [s|s| |s m e He]; try discriminate H; cbn in H; subst; split; try reflexivity.
  all: apply not_negative_x.
  - assert (P : (0 < B2R (B754_finite false m e He : f64))%R) by (apply F2R_gt_0; simpl; lia).
    assert (V : val F64sem (B754_finite false m e He : F64) = XFin (B2R (B754_finite false m e He : f64))) by (apply f_val_finite; reflexivity).
    set (r := B2R (B754_finite false m e He : f64)) in *. clearbody r.
    change (f_val (n_div (n_ofZ 1) (B754_finite false m e He : F64))) with (val F64sem (n_div (n_ofZ 1) (B754_finite false m e He : F64))).
    rewrite (val_div _ F64sem) by (rewrite V; intros K; injection K; lra). rewrite V, (val_ofZ _ F64sem) by (simpl; lia).
    right. rewrite <- (rnd_0 F64sem). apply (rnd_mono _ F64sem). cbn [xdiv]. rewrite Req_bool_false by lra. cbn [xleb].
    apply Rle_bool_true. apply Rmult_le_pos; [lra|]. left. apply Rinv_0_lt_compat. exact P.
Qed.
Lemma square_sign (x : f64) : plus_sign (f_mul x x).
Proof.
  unfold plus_sign, f_mul. pose proof (Bmult_correct 53 1024 _ _ mode_NE x x) as H. destruct (Rlt_bool _ _).
  - destruct H as (_ & _ & H). destruct (is_nan (Bmult mode_NE x x)); [auto|]. right. rewrite H by reflexivity. apply xorb_nilpotent.
  - rewrite xorb_nilpotent in H. destruct (Bmult mode_NE x x); cbn in *; try discriminate H; auto. right. congruence.
Qed.
Lemma plus_sign_ge0 (x : f64) : Bsign x = false -> (0 <= B2R x)%R.
Proof. destruct x as [s|s| |s m e He]; cbn; try lra. intros ->. apply F2R_ge_0. simpl. lia. Qed.
Lemma add_sign (x y : f64) : plus_sign x -> plus_sign y -> plus_sign (f_add x y).
Proof.
  unfold plus_sign, f_add. intros Hx Hy.
  destruct (is_finite x) eqn:Fx; [destruct (is_finite y) eqn:Fy|].
  - assert (Sx : Bsign x = false) by (destruct Hx as [K|K]; auto; destruct x; discriminate).
    assert (Sy : Bsign y = false) by (destruct Hy as [K|K]; auto; destruct y; discriminate).
    pose proof (plus_sign_ge0 x Sx) as Px. pose proof (plus_sign_ge0 y Sy) as Py.
    pose proof (Bplus_correct 53 1024 _ _ mode_NE x y Fx Fy) as H. destruct (Rlt_bool _ _).
    + destruct H as (_ & _ & H). right. rewrite H, Sx, Sy. destruct (Rcompare_spec (B2R x + B2R y) 0); auto. lra.
    + destruct H as [H _]. rewrite Sx in H. destruct (Bplus mode_NE x y); cbn in *; try discriminate H; auto. right. congruence.
  - destruct x as [s|s| |s m e He], y as [s'|s'| |s' m' e' He']; cbn in *; try discriminate; auto.
  - destruct x as [s|s| |s m e He], y as [s'|s'| |s' m' e' He']; cbn in *; try discriminate; auto.
    destruct Hx as [Hx|Hx], Hy as [Hy|Hy]; try discriminate; subst; auto.
Qed.
Lemma sqrt_sign (x : f64) : plus_sign x -> plus_sign (f_sqrt x).
Proof.
  unfold plus_sign, f_sqrt. intros Hx. pose proof (Bsqrt_correct 53 1024 _ _ mode_NE x) as (_ & _ & H).
  destruct (is_nan (Bsqrt mode_NE x)); [auto|]. right. rewrite H by reflexivity.
  destruct Hx as [K|K]; auto. destruct x; try discriminate K. reflexivity.
Qed.
Lemma brute_distances : distances_ok (brute_query (O := F64)).
Proof.
  intros X q k eps ub d i H Hi. unfold brute_query in H. cbv zeta in H. apply in_app_or in H as [H|H].
  - apply in_map_iff in H as (j & E & _). injection E as <- _. apply plus_sign_distance. unfold pdist. apply sqrt_sign, add_sign; apply square_sign.
  - apply repeat_spec in H. injection H as _ E. exfalso. rewrite E in Hi. exact (Nat.lt_irrefl _ Hi).
Qed.
