(** * Proofs about histories of the caches *)
From Coq Require Import List Bool String Ascii Lia Arith.
From Verif Require Import Base Cache_model Cache_spec Cache_proofs.
Import ListNotations.
Local Open Scope nat_scope.
Local Open Scope string_scope.
Local Open Scope list_scope.
Local Notation length := List.length.

Section P.
Context {C : Type}.
Implicit Types (h : list (option (string * bool * transfer C))).

Definition step (e : option (string * bool * transfer C)) (s : store C) : store C :=
  match e with Some (n, f, tr) => fst (fst (fetch n f tr s)) | None => fst (clear_model_cache s) end.
Fixpoint gen_run h (s : store C) : store C := match h with [] => s | e :: h => gen_run h (step e s) end.
Lemma gen_run_snoc h : forall s e, gen_run (h ++ [e]) s = step e (gen_run h s).
Proof. induction h as [|a h IH]; intros s e; cbn; auto. Qed.

Lemma nth_snoc {A} (h : list A) e k : nth_error (h ++ [e]) k = if Nat.ltb k (length h) then nth_error h k else if Nat.eqb k (length h) then Some e else None.
Proof.
  destruct (Nat.ltb_spec k (length h)); [apply nth_error_app1; auto|]. rewrite nth_error_app2 by auto. destruct (Nat.eqb_spec k (length h)) as [->|N]; [rewrite Nat.sub_diag; auto|].
  replace (k - length h) with (Datatypes.S (k - length h - 1)) by lia. cbn. destruct (k - length h - 1); reflexivity.
Qed.
Lemma nth_lt {A} (h : list A) k x : nth_error h k = Some x -> k < length h.
Proof. intros E. apply nth_error_Some. congruence. Qed.

Lemma cached_snoc h e name : cached (h ++ [e]) name <-> (exists f tr, e = Some (name, f, tr) /\ connects tr) \/ (cached h name /\ e <> None).
Proof.
  split.
  - intros (i & f & tr & E & K & H). rewrite nth_snoc in E. destruct (Nat.ltb_spec i (length h)) as [L|L].
    + right. split.
      * exists i, f, tr. split; auto. split; auto. intros k Hk Ek. pose proof (nth_lt _ _ _ Ek) as Lk. apply (H k Hk). rewrite nth_snoc. destruct (Nat.ltb_spec k (length h)); [auto|lia].
      * intros ->. apply (H (length h) L). rewrite nth_snoc, Nat.ltb_irrefl, Nat.eqb_refl. reflexivity.
    + left. destruct (Nat.eqb i (length h)); [|discriminate]. injection E as ->. eauto.
  - intros [(f & tr & -> & K)|[(i & f & tr & E & K & H) NE]].
    + exists (length h), f, tr. rewrite nth_snoc, Nat.ltb_irrefl, Nat.eqb_refl. split; auto. split; auto. intros k Hk. rewrite nth_snoc.
      destruct (Nat.ltb_spec k (length h)); [lia|]. destruct (Nat.eqb_spec k (length h)); [lia|]. discriminate.
    + pose proof (nth_lt _ _ _ E) as L. exists i, f, tr. rewrite nth_snoc. destruct (Nat.ltb_spec i (length h)); [|lia]. split; auto. split; auto.
      intros k Hk. rewrite nth_snoc. destruct (Nat.ltb_spec k (length h)); [apply H; auto|]. destruct (Nat.eqb k (length h)); congruence.
Qed.
Lemma stored_snoc h e name v : stored (h ++ [e]) name v <->
  (exists f tr, e = Some (name, f, tr) /\ leaves tr v /\ (f = true \/ ~ cached h name)) \/
  (stored h name v /\ e <> None /\ forall tr, e = Some (name, true, tr) -> ~ connects tr).
Proof.
  split.
  - intros (i & f & tr & E & K & W & H). rewrite nth_snoc in E. destruct (Nat.ltb_spec i (length h)) as [L|L].
    + right. split; [|split].
      * exists i, f, tr. split; auto. split; auto. split.
        { replace (firstn i (h ++ [e])) with (firstn i h) in W; auto. rewrite firstn_app. replace (i - length h) with 0 by lia. cbn. rewrite app_nil_r. auto. }
        intros k Hk. destruct (H k Hk) as [H1 H2]. split.
        { intros Ek. apply H1. pose proof (nth_lt _ _ _ Ek). rewrite nth_snoc. destruct (Nat.ltb_spec k (length h)); [auto|lia]. }
        intros tr' Ek. apply H2. pose proof (nth_lt _ _ _ Ek). rewrite nth_snoc. destruct (Nat.ltb_spec k (length h)); [auto|lia].
      * intros ->. apply (H (length h) L). rewrite nth_snoc, Nat.ltb_irrefl, Nat.eqb_refl. reflexivity.
      * intros tr' ->. apply (H (length h) L). rewrite nth_snoc, Nat.ltb_irrefl, Nat.eqb_refl. reflexivity.
    + left. destruct (Nat.eqb_spec i (length h)) as [->|]; [|discriminate]. injection E as ->. exists f, tr. split; auto. split; auto.
      rewrite firstn_app, Nat.sub_diag, firstn_all in W. cbn in W. rewrite app_nil_r in W. auto.
  - intros [(f & tr & -> & K & W)|[(i & f & tr & E & K & W & H) [NE NF]]].
    + exists (length h), f, tr. rewrite nth_snoc, Nat.ltb_irrefl, Nat.eqb_refl. split; auto. split; auto. split.
      { rewrite firstn_app, Nat.sub_diag, firstn_all. cbn. rewrite app_nil_r. auto. }
      intros k Hk. rewrite nth_snoc. destruct (Nat.ltb_spec k (length h)); [lia|]. destruct (Nat.eqb_spec k (length h)); [lia|]. split; intros; discriminate.
    + pose proof (nth_lt _ _ _ E) as L. exists i, f, tr. rewrite nth_snoc. destruct (Nat.ltb_spec i (length h)); [|lia]. split; auto. split; auto. split.
      { rewrite firstn_app. replace (i - length h) with 0 by lia. cbn. rewrite app_nil_r. auto. }
      intros k Hk. rewrite nth_snoc. destruct (Nat.ltb_spec k (length h)); [apply H; auto|]. destruct (Nat.eqb k (length h)); split; try congruence. intros tr' Q. injection Q as Q. eauto.
Qed.

Lemma leaves_left (tr : transfer C) v : leaves tr v <-> left_by tr = Some v.
Proof. unfold leaves. destruct tr; cbn; split; try intros [|]; try congruence; intros E; injection E as ->; auto. Qed.
Lemma connects_left (tr : transfer C) : connects tr <-> left_by tr <> None.
Proof. unfold connects. destruct tr; cbn; split; congruence. Qed.

Lemma run_inv h : good (gen_run h None) /\ forall name, regular name ->
  (forall v, file (gen_run h None) name = Some v <-> stored h name v) /\ (file (gen_run h None) name <> None <-> cached h name).
Proof.
  induction h as [|e h IH] using rev_ind.
  - split; [exact I|]. intros name R. split; [intros v|]; cbn; split; try discriminate; try congruence; intros (i & f & tr & E & _); destruct i; discriminate.
  - destruct IH as [G IH]. rewrite gen_run_snoc. set (s := gen_run h None) in *. destruct e as [[[n f] tr]|].
    + cbn [step]. pose proof (fetch_spec n f tr s G) as F. destruct (fetch n f tr s) as [[s' r] b]. destruct F as (G' & Fo & Fr & _). cbn [fst]. split; auto.
      intros name R. destruct (IH name R) as [I1 I2]. destruct (string_dec name n) as [->|N].
      * destruct (Fr R) as (Eb & Ef & _). split.
        { intros v. rewrite stored_snoc, Ef, <- (I1 v). rewrite Eb. destruct (file s n) as [c|] eqn:F0.
          - rewrite orb_false_r. destruct f; cbn.
            + split.
              * intros E. destruct (left_by tr) as [c'|] eqn:LB; [left; exists true, tr; split; auto; split; [apply leaves_left; congruence|auto]|].
                right. split; auto. split; [discriminate|]. intros tr' Q. injection Q as <-. rewrite connects_left. congruence.
              * intros [(f & tr' & Q & K & _)|(E & _ & K)]; [injection Q as <- <-; apply leaves_left in K; rewrite K; auto|].
                destruct (left_by tr) eqn:LB; auto. exfalso. apply (K tr eq_refl). rewrite connects_left. congruence.
            + split; [intros E; right; split; auto; split; [discriminate|intros; discriminate]|]. intros [(f & tr' & Q & K & [W|W])|(E & _ & K)]; auto; [injection Q as <- <-; discriminate|].
              exfalso. apply W. apply I2. congruence.
          - rewrite orb_true_r. split.
            + intros E. left. exists f, tr. split; auto. split; [apply leaves_left; destruct (left_by tr); congruence|]. right. rewrite <- I2. congruence.
            + intros [(f' & tr' & Q & K & W)|(E & _)]; [injection Q as <- <-; apply leaves_left in K; rewrite K; auto|discriminate]. }
        { rewrite cached_snoc, Ef, <- I2, Eb. split.
          - intros K. destruct (file s n) as [c|] eqn:F0; [right; split; discriminate|]. rewrite orb_true_r in K. left. exists f, tr. split; auto. apply connects_left. destruct (left_by tr); congruence.
          - intros [(f' & tr' & Q & K)|[K _]].
            + injection Q as <- <-. apply connects_left in K. destruct (left_by tr); [|congruence]. destruct (file s n); destruct f; cbn; congruence.
            + destruct (file s n); [|congruence]. destruct f; cbn; [|congruence]. destruct (left_by tr); congruence. }
      * rewrite Fo by auto. split.
        { intros v. rewrite stored_snoc, (I1 v). split.
          - intros K. right. split; auto. split; [discriminate|]. intros tr' Q. congruence.
          - intros [(f' & tr' & Q & _)|(K & _)]; [congruence|auto]. }
        { rewrite cached_snoc, I2. split; [intros K; right; split; [auto|discriminate]|]. intros [(f' & tr' & Q & _)|[K _]]; [congruence|auto]. }
    + cbn [step]. assert (E : exists o, fst (clear_model_cache s) = o /\ good o /\ forall n, file o n = None).
      { destruct s as [d|]; [|exists None; auto]. exists (Some []). rewrite clear_files by exact G. split; auto. split; [intros p []|reflexivity]. }
      destruct E as (o & -> & Go & Fo). split; auto. intros name R. split; [intros v; rewrite stored_snoc|rewrite cached_snoc]; rewrite Fo; split; try congruence.
      * intros [(f & tr & Q & _)|(_ & Q & _)]; congruence.
      * intros [(f & tr & Q & _)|(_ & Q)]; congruence.
Qed.

(** ** the two caches *)
Lemma tf_run_gen (h : list (string * bool * transfer C)) : forall s, tf_run h s = gen_run (tf_history h) s.
Proof. induction h as [|[[u f] tr] h IH]; intros s; cbn; auto. Qed.
Lemma torch_run_gen md5 h : forall s, torch_run md5 h s = gen_run (torch_history md5 h) s.
Proof. induction h as [|[[[u f] tr]|] h IH]; intros s; cbn; auto; rewrite <- IH; reflexivity. Qed.

(** a request after a history *)
Lemma request_after h name f tr : regular name ->
  let '(s', r, b) := fetch name f tr (gen_run h None) in
  (b = true <-> f = true \/ ~ cached h name) /\
  (r = Ok name /\ cached_file s' name <> None <-> (b = false \/ exists c, tr = Complete c)) /\ (forall e, r = Err e -> e = OtherError) /\
  (b = false -> cached_file s' name = cached_file (gen_run h None) name).
Proof.
  intros R. destruct (run_inv h) as [G I]. destruct (I name R) as [I1 I2]. pose proof (fetch_spec name f tr _ G) as F. destruct (fetch name f tr (gen_run h None)) as [[s' r] b].
  destruct F as (_ & _ & Fr & _). destruct (Fr R) as (Eb & Ef & Er). clear Fr. change (cached_file s' name) with (file s' name). change (cached_file (gen_run h None) name) with (file (gen_run h None) name).
  split; [|split; [|split]].
  - rewrite Eb, <- I2. destruct f; cbn [orb]; [intuition|]. destruct (file (gen_run h None) name) as [c|].
    + split; [discriminate|]. intros [Q|Q]; [discriminate|]. exfalso. apply Q. discriminate.
    + split; auto.
  - rewrite Er, Ef. destruct b.
    + destruct tr as [|c|c]; cbn; split; try (intros [? _]; discriminate); try (intros [|[? ?]]; discriminate); eauto.
      intros _. split; [auto|discriminate].
    + split; auto. intros _. split; auto. symmetry in Eb. apply orb_false_iff in Eb. destruct Eb as [_ Eb]. destruct (file (gen_run h None) name); congruence.
  - intros e E. rewrite Er in E. destruct b; [|discriminate]. destruct tr; congruence.
  - intros ->. exact Ef.
Qed.

(** without interruptions the content comes from a completed download *)
Lemma stored_complete h name v : no_interruption h -> stored h name v -> exists f, In (Some (name, f, Complete v)) h.
Proof.
  intros N (i & f & tr & E & [-> | ->] & _).
  - exfalso. eapply N. eapply nth_error_In. exact E.
  - exists f. eapply nth_error_In. exact E.
Qed.
(** an interrupted download stays *)
Lemma truncated_stays h name f p k : regular name -> (f = true \/ ~ cached h name) -> (forall e, In e k -> e <> None /\ forall tr, e <> Some (name, true, tr)) ->
  cached_file (gen_run (h ++ Some (name, f, Interrupted p) :: k) None) name = Some p.
Proof.
  intros R W K. destruct (run_inv (h ++ Some (name, f, Interrupted p) :: k)) as [_ I]. destruct (I name R) as [I1 _]. apply I1.
  assert (EN : forall j, length h < j -> nth_error (h ++ Some (name, f, Interrupted p) :: k) j = nth_error k (j - length h - 1)).
  { intros j Hj. rewrite nth_error_app2 by lia. replace (j - length h) with (Datatypes.S (j - length h - 1)) at 1 by lia. reflexivity. }
  exists (length h), f, (Interrupted p). split; [rewrite nth_error_app2 by lia; rewrite Nat.sub_diag; reflexivity|]. split; [left; auto|]. split.
  - rewrite firstn_app, firstn_all, Nat.sub_diag. cbn. rewrite app_nil_r. auto.
  - intros j Hj. rewrite EN by auto. split; [intros E; apply nth_error_In in E; apply (proj1 (K _ E)); auto|]. intros tr E. apply nth_error_In in E. exfalso. apply (proj2 (K _ E) tr). auto.
Qed.
Lemma clear_forgets h name : ~ cached (h ++ [None]) name.
Proof. rewrite cached_snoc. intros [(f & tr & Q & _)|[_ Q]]; congruence. Qed.
End P.
