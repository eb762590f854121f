From Coq Require Import List ZArith Bool Lia.
From Verif Require Import Base Num CalcStats_model CalcStats_spec.
Import ListNotations.
Local Open Scope Z_scope.

Lemma filter_app2 {A} (f : A -> bool) l m : filter f (l ++ m) = filter f l ++ filter f m.
Proof. induction l as [|a l IH]; cbn; auto. destruct (f a); cbn; rewrite IH; auto. Qed.

Section P.
Context {O : numops} (S : numsem O).
Variable corr : list (O * O) -> O.
Lemma join_valid promote (l r : list (label * O)) : filter valid_pair (join promote l r) =
  flat_map (fun a => filter valid_pair (map (fun q => (snd a, snd q)) (filter (fun q => same_label promote (fst a) (fst q)) r))) l.
Proof using S.
  induction l as [|a l IH]; auto. unfold join in *. cbn [flat_map]. rewrite filter_app2, IH. f_equal.
  destruct (filter (fun q => same_label promote (fst a) (fst q)) r) as [|q qs]; auto. cbn [map filter]. unfold valid_pair at 1. cbn [fst snd]. rewrite (isnan_nan S). rewrite andb_false_r. reflexivity.
Qed.
Lemma no_match (l : list Z) (v : list O) (t : list Z) (w : list O) :
  filter valid_pair (join false (combine (labels (Stamps l)) v) (combine (labels (Texts t)) w)) = [].
Proof using S.
  rewrite join_valid. cbn [labels]. revert v. induction l as [|n l IH]; intros [|x v]; auto. cbn [map combine flat_map]. rewrite IH, app_nil_r.
  assert (E : filter (fun q => same_label false (fst (Stamp n, x)) (fst q)) (combine (map Text t) w) = []).
  { clear. revert w. induction t as [|m t IH]; intros [|y w]; auto. cbn [map combine filter fst same_label andb]. apply IH. }
  rewrite E. reflexivity.
Qed.
Lemma texts_cons n l : map Text (n :: l) = Text n :: map Text l. Proof. reflexivity. Qed.
Lemma match_promoted (l : list Z) (v : list O) (t : list Z) (w : list O) :
  filter valid_pair (join true (combine (labels (Stamps l)) v) (combine (labels (Texts (map (fun ns => ns / 1000000000) t))) w)) = compared (combine l v) (combine t w).
Proof using S.
  rewrite join_valid. cbn [labels]. revert v. induction l as [|n l IH]; intros [|x v]; auto. cbn [map combine flat_map]. rewrite IH. clear IH.
  unfold compared. cbn [list_prod]. rewrite filter_app2, map_app. f_equal.
  revert w. induction t as [|m t IH]; intros [|y w]; auto. cbn [map combine filter fst snd same_label andb].
  specialize (IH w). cbn [fst snd same_label andb] in IH. destruct (n =? m / 1000000000 * 1000000000) eqn:E; cbn [map filter andb].
  - unfold valid_pair at 1. cbn [fst snd]. destruct (negb (n_isnan x) && negb (n_isnan y)); cbn [map fst snd]; rewrite IH; reflexivity.
  - exact IH.
Qed.
End P.
