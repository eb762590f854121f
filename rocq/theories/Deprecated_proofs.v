(** * Proofs about the deprecation decorator *)
From Coq Require Import List String Bool ZArith.
From Verif Require Import Base Deprecated_model Deprecated_spec.
Import ListNotations.
Local Open Scope string_scope.

Lemma notice_message name ins file line : "Call to deprecated function " ++ name ++ ". " ++ ins = w_message (notice name ins file line).
Proof. reflexivity. Qed.

Section P.
Context {W A V : Type}.

Theorem deprecated_transparent (fa : warning -> action) ins (f : callable W A V) name file line a st :
  c_name f = Some name -> shows (fa (notice name ins file line)) ->
  exists st', one_more (notice name ins file line) st st' /\ once st' = once st /\ deprecated fa ins f (Some (file, line)) a st = c_call f a st'.
Proof.
  intros N H. exists {| world := world st; shown := (shown st ++ [notice name ins file line])%list; once := once st |}. split; [split; reflexivity|]. split; auto.
  unfold deprecated. rewrite N. rewrite (notice_message name ins file line). change {| w_message := w_message (notice name ins file line); w_filename := file; w_lineno := line |} with (notice name ins file line).
  unfold warn_explicit. destruct H as [-> | [-> | ->]]; reflexivity.
Qed.
Theorem deprecated_ignored (fa : warning -> action) ins (f : callable W A V) name file line a st :
  c_name f = Some name -> fa (notice name ins file line) = AIgnore -> deprecated fa ins f (Some (file, line)) a st = c_call f a st.
Proof.
  intros N H. unfold deprecated. rewrite N. rewrite (notice_message name ins file line). change {| w_message := w_message (notice name ins file line); w_filename := file; w_lineno := line |} with (notice name ins file line).
  unfold warn_explicit. rewrite H. reflexivity.
Qed.
Theorem deprecated_error (fa : warning -> action) ins (f : callable W A V) name file line a st :
  c_name f = Some name -> fa (notice name ins file line) = AError -> deprecated fa ins f (Some (file, line)) a st = (Err OtherError, st).
Proof.
  intros N H. unfold deprecated. rewrite N. rewrite (notice_message name ins file line). change {| w_message := w_message (notice name ins file line); w_filename := file; w_lineno := line |} with (notice name ins file line).
  unfold warn_explicit. rewrite H. reflexivity.
Qed.
Theorem deprecated_unnamed (fa : warning -> action) ins (f : callable W A V) frame a st :
  c_name f = None \/ frame = None -> deprecated fa ins f frame a st = (Err AttributeError, st).
Proof. unfold deprecated. intros [-> | ->]; auto. destruct (c_name f); auto. Qed.

(** every call of a loop is announced, in order, and nothing else changes *)
Theorem deprecated_loop (fa : warning -> action) ins (f : callable W A V) g name : c_name f = Some name -> silent (c_call f) g -> (forall w, shows (fa w)) ->
  forall (l : list ((string * Z) * A)) st,
  let r := calls (deprecated fa ins f) (map (fun p => (Some (fst p), snd p)) l) st in
  fst r = fst (plain g (map snd l) (world st)) /\ world (snd r) = snd (plain g (map snd l) (world st)) /\
  shown (snd r) = (shown st ++ map (fun p => notice name ins (fst (fst p)) (snd (fst p))) (firstn (made g (map snd l) (world st)) l))%list.
Proof.
  intros N Sil Sh. induction l as [|[[file line] a] l IH]; intros st; cbv zeta.
  - cbn. rewrite app_nil_r. auto.
  - cbn [map calls fst snd plain made]. destruct (deprecated_transparent fa ins f name file line a st N (Sh _)) as (st' & [Ew Es] & _ & ->).
    rewrite Sil, Ew. destruct (g a (world st)) as [[v|e] w']; cbn [fst snd].
    + specialize (IH {| world := w'; shown := shown st'; once := once st' |}). cbv zeta in IH. cbn [world shown once] in IH. destruct IH as (I1 & I2 & I3).
      cbn [firstn map fst snd].
      destruct (calls _ _ _) as [[vs|e] st2]; cbn [fst snd] in *; destruct (plain g (map snd l) w') as [[vs'|e'] w2]; cbn [fst snd] in *; try discriminate; rewrite I2, I3, Es, <- app_assoc; cbn [app]; repeat split; auto; congruence.
    + cbn [world shown firstn map fst snd]. rewrite Es. auto.
Qed.
(** with the action "once" only the first of many calls is announced *)
Theorem deprecated_once (fa : warning -> action) ins (f : callable W A V) g name : c_name f = Some name -> silent (c_call f) g -> (forall w, fa w = AOnce) ->
  forall file line (l : list ((string * Z) * A)) a st,
  ~ In (w_message (notice name ins file line)) (once st) ->
  shown (snd (calls (deprecated fa ins f) (map (fun p => (Some (fst p), snd p)) ((file, line, a) :: l)) st)) = (shown st ++ [notice name ins file line])%list.
Proof.
  intros N Sil On file line l a st H. cbn [map calls fst snd]. set (w := notice name ins file line) in *.
  assert (D : deprecated fa ins f (Some (file, line)) a st = c_call f a {| world := world st; shown := (shown st ++ [w])%list; once := w_message w :: once st |}).
  { unfold deprecated. rewrite N, (notice_message name ins file line). change {| w_message := w_message (notice name ins file line); w_filename := file; w_lineno := line |} with w.
    unfold warn_explicit. rewrite On. destruct (existsb (String.eqb (w_message w)) (once st)) eqn:E; [|reflexivity].
    exfalso. apply H. apply existsb_exists in E as (x & Hx & E). apply String.eqb_eq in E. subst x. exact Hx. }
  rewrite D, Sil. cbn [world shown once].
  assert (Rest : forall l st, In (w_message w) (once st) -> shown (snd (calls (deprecated fa ins f) (map (fun p => (Some (fst p), snd p)) l) st)) = shown st).
  { clear - N Sil On. induction l as [|[[file' line'] a] l IH]; intros st H; auto. cbn [map calls fst snd].
    assert (D : deprecated fa ins f (Some (file', line')) a st = c_call f a st).
    { unfold deprecated. rewrite N. unfold warn_explicit. rewrite On.
      assert (E : existsb (String.eqb ("Call to deprecated function " ++ name ++ ". " ++ ins)) (once st) = true) by (apply existsb_exists; exists (w_message w); split; auto; apply String.eqb_refl).
      cbn [w_message]. rewrite E. reflexivity. }
    rewrite D, Sil. destruct (g a (world st)) as [[v|e] w']; cbn [fst snd]; [|reflexivity].
    specialize (IH {| world := w'; shown := shown st; once := once st |} H). cbn [shown] in IH. destruct (calls _ _ _) as [[vs|e] st2]; exact IH. }
  destruct (g a (world st)) as [[v|e] w']; cbn [fst snd]; [|reflexivity].
  specialize (Rest l {| world := w'; shown := (shown st ++ [w])%list; once := w_message w :: once st |} (or_introl eq_refl)). cbn [shown] in Rest.
  destruct (calls _ _ _) as [[vs|e] st2]; exact Rest.
Qed.
End P.
