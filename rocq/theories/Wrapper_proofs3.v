(** * Results of the wrapped function on the series of one stack *)
From Coq Require Import List String Lia PeanoNat Bool.
From Verif Require Import Base Wrapper_model Wrapper_spec.
Import ListNotations.
Local Open Scope nat_scope.
Local Notation length := List.length.
Local Notation concat := List.concat.

Section Stack.
Context {A : Type} (dA : A) (g : list A -> res (ret A)) (c : string) (n : nat).
Let f : func A := on_series g.

Lemma stack_index k : ndindex [k] = map (fun i => [i]) (seq 0 k).
Proof. cbn. generalize 0. induction k as [|k IH]; intros s; cbn; [reflexivity|]. f_equal; apply IH. Qed.
Lemma rows_concat (rows : list (list A)) i : Forall (fun r => length r = n) rows -> i < length rows ->
  firstn n (skipn (i * n) (concat rows)) = get [] rows i.
Proof.
  intros H. revert i. induction H as [|r rows Hr _ IH]; intros i Hi; [cbn in Hi; lia|]. destruct i as [|i].
  - cbn [Nat.mul skipn concat get nth]. rewrite firstn_app, Hr, Nat.sub_diag. cbn [firstn]. rewrite app_nil_r. unfold get. cbn. apply firstn_all2. lia.
  - cbn [concat]. rewrite skipn_app, Hr. rewrite (skipn_all2 r) by (cbn; lia). cbn [app]. replace (S i * n - n) with (i * n) by (cbn; lia). rewrite IH by (cbn in Hi; lia). reflexivity.
Qed.

Variable rows : list (list A).
Hypothesis HR : Forall (fun r => length r = n) rows.
Let D := DA [(c, length rows)] (Some n) (concat rows).
Let loop := vec_loop dA f n [(c, length rows)] [D].

Lemma inner_loop p : inner dA f [(p, None)] [D] [] = do out <- loop true (map (fun i => [i]) (seq 0 (length rows))); Ok (RDA [(c, length rows)] n out).
Proof. unfold inner, apply_ufunc, D. cbn -[ndindex]. rewrite stack_index. reflexivity. Qed.
Lemma slice_row i : i < length rows -> map (slice_arg dA [(c, length rows)] [i]) [D] = [Series (get [] rows i)].
Proof using HR.
  intros H. cbn. rewrite String.eqb_refl. rewrite Nat.mul_1_r, Nat.add_0_r, rows_concat by auto. reflexivity.
Qed.

(** from row [i] on *)
Lemma loop_ok i k ls : i + k = length rows -> 0 < i -> Forall2 (fun r l => exists y, g r = Ok y /\ stretched n y l) (skipn i rows) ls ->
  loop false (map (fun i => [i]) (seq i k)) = Ok (concat ls).
Proof using HR.
  revert i ls. induction k as [|k IH]; intros i ls E P H.
  - rewrite skipn_all2 in H by lia. inversion H; subst. reflexivity.
  - assert (SK : skipn i rows = get [] rows i :: skipn (S i) rows).
    { clear -E. revert i E. unfold get. induction rows as [|a l IH]; intros i E; [cbn in E; lia|]. destruct i; [reflexivity|]. cbn in E |- *. apply IH. lia. }
    rewrite SK in H. inversion H as [|? l ? ls' (y & Y & F) H']; subst. cbn [seq map]. unfold loop. cbn [vec_loop]. rewrite slice_row by lia.
    unfold f at 1. cbn [on_series]. rewrite Y. cbn [bind]. replace (fit dA n false y) with (Ok l).
    + cbn [bind]. fold loop. rewrite (IH (S i) ls') by (auto; lia). reflexivity.
    + destruct F as [l L|a|a]; cbn [fit].
      * rewrite (proj2 (Nat.eqb_eq _ _) L). reflexivity.
      * cbn [length]. destruct (1 =? n) eqn:E1; [apply Nat.eqb_eq in E1; subst n; reflexivity|]. reflexivity.
      * reflexivity.
Qed.
Lemma loop_bad i k j r : i + k = length rows -> 0 < i -> i <= j < length rows -> (forall m, i <= m < j -> exists y l, g (get [] rows m) = Ok y /\ stretched n y l) ->
  g (get [] rows j) = Ok (RSeries r) -> length r <> n -> length r <> 1 -> loop false (map (fun i => [i]) (seq i k)) = Err ValueError.
Proof using HR.
  revert i. induction k as [|k IH]; intros i E P J HP G N1 N2; [lia|]. cbn [seq map]. unfold loop. cbn [vec_loop]. rewrite slice_row by lia.
  unfold f at 1. cbn [on_series]. destruct (Nat.eq_dec i j) as [->|NE].
  - rewrite G. cbn [bind fit]. rewrite (proj2 (Nat.eqb_neq _ _) N1), (proj2 (Nat.eqb_neq _ _) N2). reflexivity.
  - destruct (HP i) as (y & l & Y & F); [lia|]. rewrite Y. cbn [bind]. replace (fit dA n false y) with (Ok l).
    + cbn [bind]. fold loop. rewrite (IH (S i)) by (auto; try lia; intros m Hm; apply HP; lia). reflexivity.
    + destruct F as [l L|a|a]; cbn [fit].
      * rewrite (proj2 (Nat.eqb_eq _ _) L). reflexivity.
      * cbn [length]. destruct (1 =? n) eqn:E1; [apply Nat.eqb_eq in E1; subst n; reflexivity|]. reflexivity.
      * reflexivity.
Qed.

Lemma stack_ok p first rest l0 ls : rows = first :: rest -> g first = Ok (RSeries l0) -> length l0 = n ->
  Forall2 (fun r l => exists y, g r = Ok y /\ stretched n y l) rest ls ->
  inner dA f [(p, None)] [D] [] = Ok (RDA [(c, length rows)] n (l0 ++ concat ls)).
Proof using HR.
  intros E G L H. rewrite inner_loop. assert (LR : length rows = S (length rest)) by (rewrite E; reflexivity).
  rewrite LR at 1. cbn [seq map]. unfold loop at 1. cbn [vec_loop]. rewrite slice_row by lia. rewrite E at 1. unfold get at 1. cbn [nth]. unfold f at 1. cbn [on_series]. rewrite G. cbn [bind fit].
  rewrite (proj2 (Nat.eqb_eq _ _) L). cbn [bind]. fold loop. rewrite (loop_ok 1 (length rest) ls) by (auto; try lia; rewrite E; auto). reflexivity.
Qed.
Lemma stack_first p first rest y : rows = first :: rest -> g first = Ok y -> (forall d m o, y <> RDA d m o) -> (forall t, y <> RTuple t) -> (forall l, y = RSeries l -> length l <> n) ->
  inner dA f [(p, None)] [D] [] = Err ValueError.
Proof using HR.
  intros E G NT NU NS. rewrite inner_loop. assert (LR : length rows = S (length rest)) by (rewrite E; reflexivity).
  rewrite LR at 1. cbn [seq map]. unfold loop at 1. cbn [vec_loop]. rewrite slice_row by lia. rewrite E at 1. unfold get at 1. cbn [nth]. unfold f at 1. cbn [on_series]. rewrite G. cbn [bind].
  destruct y as [a|l|t|d m o]; cbn [fit bind]; [reflexivity| |exfalso; eapply NU; reflexivity|exfalso; eapply NT; reflexivity].
  rewrite (proj2 (Nat.eqb_neq _ _) (NS _ eq_refl)). reflexivity.
Qed.
Lemma stack_later p first rest l0 j r : rows = first :: rest -> g first = Ok (RSeries l0) -> length l0 = n -> j < length rest ->
  (forall m, m < j -> exists y l, g (get [] rest m) = Ok y /\ stretched n y l) ->
  g (get [] rest j) = Ok (RSeries r) -> length r <> n -> length r <> 1 -> inner dA f [(p, None)] [D] [] = Err ValueError.
Proof using HR.
  intros E G L J HP GJ N1 N2. rewrite inner_loop. assert (LR : length rows = S (length rest)) by (rewrite E; reflexivity).
  rewrite LR at 1. cbn [seq map]. unfold loop at 1. cbn [vec_loop]. rewrite slice_row by lia. rewrite E at 1. unfold get at 1. cbn [nth]. unfold f at 1. cbn [on_series]. rewrite G. cbn [bind fit].
  rewrite (proj2 (Nat.eqb_eq _ _) L). cbn [bind]. fold loop. assert (GE : forall m, get [] rows (S m) = get [] rest m) by (intros m; rewrite E; reflexivity).
  rewrite (loop_bad 1 (length rest) (S j) r); auto; try lia; try (rewrite GE; auto).
  intros m Hm. destruct m as [|m]; [lia|]. rewrite GE. apply HP. lia.
Qed.
End Stack.
