(** * Proofs about the download caches *)
From Coq Require Import List Bool String Ascii Lia Arith.
From Verif Require Import Base Cache_model Cache_spec.
Import ListNotations.
Local Open Scope nat_scope.
Local Open Scope string_scope.
Local Notation length := List.length.

(** ** strings *)
Lemma split_nonempty s : split_slash s <> [].
Proof. destruct s as [|c s]; cbn; [discriminate|]. destruct (Ascii.eqb c "/"); [discriminate|]. destruct (split_slash s); discriminate. Qed.
Lemma no_slash_tail c s : no_slash (String c s) <-> c <> "/"%char /\ no_slash s.
Proof.
  unfold no_slash. split.
  - intros H. split; [specialize (H 0); cbn in H; congruence|]. intros i. exact (H (Datatypes.S i)).
  - intros [H1 H2] [|i]; cbn; [congruence|apply H2].
Qed.
Lemma no_slash_empty : no_slash "". Proof. intros [|i]; discriminate. Qed.
Lemma split_last s : exists l h, split_slash s = (l ++ [h])%list /\ last_component s h /\ (l = [] -> h = s).
Proof.
  induction s as [|c s IH].
  - exists [], "". split; auto. split; auto. split; [apply no_slash_empty|auto].
  - destruct IH as (l & h & E & [N D] & L). cbn. rewrite E. destruct (Ascii.eqb_spec c "/") as [->|NC].
    + exists ("" :: l), h. split; auto. split; [|discriminate]. split; auto. right. destruct D as [->|(p & ->)]; [exists ""; reflexivity|exists (String "/" p); reflexivity].
    + destruct l as [|a l]; cbn.
      * rewrite (L eq_refl) in *. exists [], (String c s). split; auto. split; auto. split; [apply no_slash_tail; auto|auto].
      * exists (String c a :: l), h. split; auto. split; [|discriminate]. split; auto. right. destruct D as [->|(p & ->)]; [|exists (String c p); reflexivity].
        (* h = s although there is a slash before it: impossible, but the tail is still s *)
        exfalso. clear -E N. revert a l E. induction s as [|d s IH]; intros a l E; cbn in E; [destruct l; discriminate|]. apply no_slash_tail in N. destruct N as [N1 N2].
        destruct (Ascii.eqb_spec d "/"); [contradiction|]. 
        assert (Q : forall s, no_slash s -> split_slash s = [s]).
        { clear. induction s as [|d s IH]; intros N; auto. apply no_slash_tail in N. destruct N as [N1 N2]. cbn. destruct (Ascii.eqb_spec d "/"); [contradiction|]. rewrite IH by auto. reflexivity. }
        rewrite Q in E by auto. injection E as _ E. destruct l; discriminate.
Qed.
Lemma tf_name_spec url : last_component url (tf_name url).
Proof. unfold tf_name. destruct (split_last url) as (l & h & -> & H & _). rewrite last_last. auto. Qed.
Lemma last_component_unique url a b : last_component url a -> last_component url b -> a = b.
Proof.
  assert (Q : forall p a b, no_slash b -> b = p ++ "/" ++ a -> False).
  { induction p as [|c p IH]; intros a0 b0 N ->; [apply (N 0); reflexivity|]. cbn in N. apply no_slash_tail in N. destruct N as [_ N]. eapply IH; [exact N|reflexivity]. }
  assert (P : forall p q a b, no_slash a -> no_slash b -> p ++ "/" ++ a = q ++ "/" ++ b -> a = b).
  { induction p as [|c p IH]; intros [|d q] a0 b0 Na Nb E; cbn in E.
    - congruence.
    - injection E as <- E. exfalso. eapply (Q q b0 a0); eauto.
    - injection E as -> E. exfalso. eapply (Q p a0 b0); eauto.
    - injection E as _ E. eapply IH; eauto. }
  intros [Na [->|(p & Ea)]] [Nb [->|(q & Eb)]]; auto.
  - exfalso. eapply Q; [exact Na|exact Eb].
  - exfalso. eapply Q; [exact Nb|exact Ea].
  - subst url. eapply P; [exact Na|exact Nb|exact Eb].
Qed.
Lemma dir_name_regular name : dir_name name = false <-> regular name.
Proof.
  unfold dir_name, regular. destruct (String.eqb_spec name ""), (String.eqb_spec name "."), (String.eqb_spec name ".."); cbn; intuition congruence.
Qed.
Lemma model_filename_regular md5 url : regular (model_filename md5 url).
Proof. unfold model_filename, regular. repeat split; discriminate. Qed.

Section P.
Context {C : Type}.
Implicit Types (h : list (option (string * bool * transfer C))) (d : dir C).

(** ** one directory *)
Lemma find_filter_other d n m : n <> m -> find (fun p => fst p =? n) (filter (fun p : string * entry C => negb (fst p =? m)) d) = find (fun p => fst p =? n) d.
Proof.
  intros N. induction d as [|[a e] d IH]; auto. cbn. destruct (String.eqb_spec a m) as [->|]; cbn.
  - destruct (String.eqb_spec m n); [congruence|]. exact IH.
  - destruct (String.eqb_spec a n); auto.
Qed.
Lemma lookup_write d n m c : lookup (write d n c) m = if n =? m then Some (File c) else lookup d m.
Proof.
  unfold lookup, write. cbn. destruct (String.eqb_spec n m) as [->|N]; auto. f_equal. apply find_filter_other. auto.
Qed.
Definition only_files d := forall p, In p d -> exists c, snd p = File c.
Lemma lookup_files d n : only_files d -> lookup d n <> Some Dir.
Proof.
  intros H E. unfold lookup in E. destruct (find _ d) as [p|] eqn:F; [|discriminate]. apply find_some in F. destruct (H p) as [c Ec]; [apply F|]. cbn in E. congruence.
Qed.
Lemma write_files d n c : only_files d -> only_files (write d n c).
Proof. intros H p [<-|Hp]; [exists c; reflexivity|]. apply filter_In in Hp. apply H. tauto. Qed.
Lemma unlink_files d0 : forall d, only_files d0 -> exists d', unlink_all d0 d = (d', Ok tt) /\ forall p, In p d' <-> In p d /\ forall q, In q d0 -> fst q <> fst p.
Proof.
  induction d0 as [|[n e] d0 IH]; intros d H.
  - exists d. split; auto. intros p. split; [intros; split; auto|intros [? _]; auto].
  - destruct (H (n, e)) as [c E]; [left; auto|]. cbn in E. subst e. cbn [unlink_all].
    destruct (IH (filter (fun p => negb (fst p =? n)) d)) as (d' & E & Hd); [intros p Hp; apply H; right; auto|]. exists d'. split; auto. intros p. rewrite Hd, filter_In, negb_true_iff, String.eqb_neq.
    split; [intros [[A B] Q]; split; auto; intros q [<-|Hq]; auto|]. intros [A Q]. split; [split; auto|]; [intros E'; apply (Q (n, File c)); [left; auto|cbn; congruence]|intros q Hq; apply Q; right; auto].
Qed.
Lemma clear_files d : only_files d -> clear_model_cache (Some d) = (Some [], Ok tt).
Proof.
  intros H. cbn. destruct (unlink_files d d H) as (d' & E & Hd). rewrite E. destruct d' as [|p d']; auto. exfalso.
  destruct (proj1 (Hd p) (or_introl eq_refl)) as [A Q]. apply (Q p); auto.
Qed.

(** ** one request, for either naming scheme *)
Definition fetch (name : string) (force : bool) (tr : transfer C) (s : store C) : store C * res string * bool :=
  let d := mkdir s in
  if negb (path_exists d name) || force then
    let '(d, r) := urlretrieve d name tr in (Some d, bind r (fun _ => Ok name), true)
  else (Some d, Ok name, false).
Lemma tf_fetch url force tr (s : store C) : download_and_cache url force tr s = fetch (tf_name url) force tr s. Proof. reflexivity. Qed.
Lemma torch_fetch md5 url force tr (s : store C) : download_and_cache_model md5 url force tr s = fetch (model_filename md5 url) force tr s. Proof. reflexivity. Qed.

Definition good (s : store C) := match s with Some d => only_files d | None => True end.
Definition file (s : store C) (name : string) : option C := cached_file s name.
Definition left_by (tr : transfer C) : option C := match tr with NoConnection => None | Interrupted c | Complete c => Some c end.

Lemma file_mkdir s n : file (Some (mkdir s)) n = file s n.
Proof. destruct s; reflexivity. Qed.
Lemma exists_file s n : good s -> regular n -> path_exists (mkdir s) n = match file s n with Some _ => true | None => false end.
Proof.
  intros G R. unfold path_exists. rewrite (proj2 (dir_name_regular n) R). cbn. destruct s as [d|]; [|reflexivity]. cbn in *.
  destruct (lookup d n) as [[c|]|] eqn:L; auto. exfalso. eapply lookup_files; eauto.
Qed.

(** what one request does *)
Lemma fetch_spec name force tr s : good s ->
  let '(s', r, b) := fetch name force tr s in
  good s' /\
  (forall n, n <> name \/ ~ regular name -> file s' n = file s n) /\
  (regular name ->
     b = (force || match file s name with Some _ => false | None => true end) /\
     file s' name = (if b then match left_by tr with Some c => Some c | None => file s name end else file s name) /\
     r = (if b then match tr with Complete _ => Ok name | _ => Err OtherError end else Ok name)) /\
  (~ regular name -> b = force /\ r = if force then Err OtherError else Ok name).
Proof.
  intros G. unfold fetch.
  assert (GM : only_files (mkdir s)) by (destruct s; cbn in *; auto; intros p []).
  destruct (path_exists (mkdir s) name) eqn:PE, force; cbn [negb orb].
  2:{ split; auto. split; [intros; apply file_mkdir|]. split; [|intros NR; auto].
      intros R. rewrite (exists_file s name G R) in PE. destruct (file s name) eqn:F; [|discriminate]. rewrite file_mkdir, F. auto. }
  all: destruct (dir_name name) eqn:DN.
  all: assert (RR : regular name <-> dir_name name = false) by (symmetry; apply dir_name_regular); rewrite DN in RR.
  1,3,5: try (unfold path_exists in PE; rewrite DN in PE; discriminate).
  1: { assert (NR : ~ regular name) by (rewrite RR; discriminate). unfold urlretrieve. rewrite DN.
       destruct tr as [|c|c]; cbn [bind]; (split; [exact GM|]); (split; [intros; apply file_mkdir|]); (split; [intros R; contradiction|auto]). }
  all: assert (R : regular name) by (apply RR; auto); rewrite (exists_file s name G R) in PE.
  all: unfold urlretrieve; rewrite DN.
  all: destruct tr as [|c|c]; cbn [bind].
  all: try (destruct (lookup (mkdir s) name) as [[c0|]|] eqn:L; [| exfalso; eapply lookup_files; eauto |]).
  all: cbn [bind]; split; [try exact GM; try (apply write_files; exact GM)|].
  all: split; [intros n [Hn|Hn]; [|contradiction]; first [apply file_mkdir | rewrite <- (file_mkdir s n); unfold file, cached_file; rewrite lookup_write; destruct (String.eqb_spec name n); [congruence|reflexivity]]|].
  all: split; [intros _|intros; contradiction].
  all: destruct (file s name) as [c1|] eqn:F; try discriminate; cbn [orb left_by].
  all: try rewrite file_mkdir.
  all: repeat split; auto.
  all: unfold file, cached_file; rewrite lookup_write, String.eqb_refl; reflexivity.
Qed.
End P.
