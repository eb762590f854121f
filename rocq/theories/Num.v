(** * Numbers

    [numops]: the operations numeric code uses; models are written over it.
    [xr]: extended reals (NaN, -inf, reals, +inf), the exact-arithmetic instance.
    [numsem]: what is known about an instance - each operation is the exact
    extended-real operation followed by a monotone rounding. *)
From Coq Require Import Reals Lra ZArith Bool.
From Flocq Require Import Core.
Local Open Scope R_scope.

Record numops : Type := mk_numops {
  num :> Type;
  n_nan : num;
  n_ofZ : Z -> num;
  n_add : num -> num -> num;
  n_sub : num -> num -> num;
  n_mul : num -> num -> num;
  n_div : num -> num -> num;
  n_opp : num -> num;
  n_abs : num -> num;
  n_sqrt : num -> num;
  n_rint : num -> num;
  n_ltb : num -> num -> bool;
  n_leb : num -> num -> bool;
  n_eqb : num -> num -> bool;
  n_isnan : num -> bool;
  n_isinf : num -> bool
}.
Arguments n_nan {_}.
Arguments n_ofZ {_} _.
Arguments n_add {_} _ _.
Arguments n_sub {_} _ _.
Arguments n_mul {_} _ _.
Arguments n_div {_} _ _.
Arguments n_opp {_} _.
Arguments n_abs {_} _.
Arguments n_sqrt {_} _.
Arguments n_rint {_} _.
Arguments n_ltb {_} _ _.
Arguments n_leb {_} _ _.
Arguments n_eqb {_} _ _.
Arguments n_isnan {_} _.
Arguments n_isinf {_} _.

(** A decimal literal [m * 10^-e] of the source, e.g. [-1.4] is
    [n_lit (-14) 1].  In F64 the quotient of two exactly representable
    integers is the correctly rounded decimal, as the Python parser gives. *)
Definition n_lit {O : numops} (m : Z) (e : nat) : O :=
  n_div (n_ofZ m) (n_ofZ (10 ^ Z.of_nat e)).

Definition n_isfinite {O : numops} (x : O) : bool := negb (n_isnan x) && negb (n_isinf x).

(** ** Extended reals *)
Inductive xr : Type := XNaN | XNInf | XFin (r : R) | XPInf.

Definition xisnan (x : xr) : bool := match x with XNaN => true | _ => false end.
Definition xisinf (x : xr) : bool := match x with XPInf | XNInf => true | _ => false end.

Definition xltb (x y : xr) : bool :=
  match x, y with
  | XNaN, _ | _, XNaN => false
  | XNInf, XNInf => false
  | XNInf, _ => true
  | _, XNInf => false
  | XFin a, XFin b => Rlt_bool a b
  | XFin _, XPInf => true
  | XPInf, _ => false
  end.

Definition xleb (x y : xr) : bool :=
  match x, y with
  | XNaN, _ | _, XNaN => false
  | XNInf, _ => true
  | _, XNInf => false
  | XFin a, XFin b => Rle_bool a b
  | _, XPInf => true
  | XPInf, XFin _ => false
  end.

Definition xeqb (x y : xr) : bool :=
  match x, y with
  | XNInf, XNInf => true
  | XFin a, XFin b => Req_bool a b
  | XPInf, XPInf => true
  | _, _ => false
  end.

Definition xopp (x : xr) : xr :=
  match x with XNaN => XNaN | XNInf => XPInf | XFin a => XFin (- a) | XPInf => XNInf end.

Definition xabs (x : xr) : xr :=
  match x with XNaN => XNaN | XNInf => XPInf | XFin a => XFin (Rabs a) | XPInf => XPInf end.

Definition xadd (x y : xr) : xr :=
  match x, y with
  | XNaN, _ | _, XNaN => XNaN
  | XFin a, XFin b => XFin (a + b)
  | XPInf, XNInf | XNInf, XPInf => XNaN
  | XPInf, _ | _, XPInf => XPInf
  | XNInf, _ | _, XNInf => XNInf
  end.

Definition xsub (x y : xr) : xr := xadd x (xopp y).

(** sign: -1, 0, 1 *)
Definition xsgn (x : xr) : comparison :=
  match x with
  | XNaN => Eq
  | XNInf => Lt
  | XPInf => Gt
  | XFin a => Rcompare a 0
  end.

Definition xinf_signed (a b : comparison) : xr :=
  match a, b with
  | Eq, _ | _, Eq => XNaN
  | Lt, Lt | Gt, Gt => XPInf
  | _, _ => XNInf
  end.

Definition xmul (x y : xr) : xr :=
  match x, y with
  | XNaN, _ | _, XNaN => XNaN
  | XFin a, XFin b => XFin (a * b)
  | _, _ => xinf_signed (xsgn x) (xsgn y)
  end.

(** Zero is unsigned in [xr]: a non-zero number divided by zero takes the
    sign of the dividend (zero counts as +0). *)
Definition xdiv (x y : xr) : xr :=
  match x, y with
  | XNaN, _ | _, XNaN => XNaN
  | XFin a, XFin b =>
      if Req_bool b 0 then
        match Rcompare a 0 with Eq => XNaN | Lt => XNInf | Gt => XPInf end
      else XFin (a / b)
  | XFin _, _ => XFin 0
  | _, XFin b => xinf_signed (xsgn x) (if Rlt_bool b 0 then Lt else Gt)
  | _, _ => XNaN
  end.

Definition xsqrt (x : xr) : xr :=
  match x with
  | XFin a => if Rlt_bool a 0 then XNaN else XFin (sqrt a)
  | XPInf => XPInf
  | _ => XNaN
  end.

Definition xrint (x : xr) : xr :=
  match x with XFin a => XFin (IZR (ZnearestE a)) | _ => x end.

Canonical Structure XR : numops := {|
  num := xr;
  n_nan := XNaN;
  n_ofZ z := XFin (IZR z);
  n_add := xadd; n_sub := xsub; n_mul := xmul; n_div := xdiv;
  n_opp := xopp; n_abs := xabs;
  n_sqrt := xsqrt; n_rint := xrint;
  n_ltb := xltb; n_leb := xleb; n_eqb := xeqb;
  n_isnan := xisnan; n_isinf := xisinf
|}.

(** ** Laws *)
Record numsem (O : numops) : Type := {
  val : O -> xr;
  rnd : xr -> xr;
  rnd_mono : forall a b, xleb a b = true -> xleb (rnd a) (rnd b) = true;
  rnd_nan : forall a, xisnan (rnd a) = xisnan a;
  rnd_inf : forall a, xisinf a = true -> rnd a = a;
  rnd_val : forall x, rnd (val x) = val x;
  val_nan : val n_nan = XNaN;
  val_ofZ : forall z, (Z.abs z <= 2 ^ 53)%Z -> val (n_ofZ z) = XFin (IZR z);
  val_add : forall x y, val (n_add x y) = rnd (xadd (val x) (val y));
  val_sub : forall x y, val (n_sub x y) = rnd (xsub (val x) (val y));
  val_mul : forall x y, val (n_mul x y) = rnd (xmul (val x) (val y));
  val_div : forall x y, val y <> XFin 0 -> val (n_div x y) = rnd (xdiv (val x) (val y));
  val_div0 : forall x y, val y = XFin 0 ->
     (xisnan (val x) = true \/ val x = XFin 0 -> val (n_div x y) = XNaN) /\
     (xisnan (val x) = false -> val x <> XFin 0 -> xisinf (val (n_div x y)) = true);
  val_opp : forall x, val (n_opp x) = xopp (val x);
  val_abs : forall x, val (n_abs x) = xabs (val x);
  val_sqrt : forall x, val (n_sqrt x) = rnd (xsqrt (val x));
  val_rint : forall x, val (n_rint x) = xrint (val x);
  val_ltb : forall x y, n_ltb x y = xltb (val x) (val y);
  val_leb : forall x y, n_leb x y = xleb (val x) (val y);
  val_eqb : forall x y, n_eqb x y = xeqb (val x) (val y);
  val_isnan : forall x, n_isnan x = xisnan (val x);
  val_isinf : forall x, n_isinf x = xisinf (val x)
}.
Arguments val {_} _ _.
Arguments rnd {_} _ _.

(** ** Order facts on extended reals *)
Ltac xcases :=
  repeat match goal with
  | H : context [Rlt_bool ?a ?b] |- _ => destruct (Rlt_bool_spec a b); try discriminate
  | |- context [Rlt_bool ?a ?b] => destruct (Rlt_bool_spec a b); try discriminate
  | H : context [Rle_bool ?a ?b] |- _ => destruct (Rle_bool_spec a b); try discriminate
  | |- context [Rle_bool ?a ?b] => destruct (Rle_bool_spec a b); try discriminate
  | H : context [Req_bool ?a ?b] |- _ => destruct (Req_bool_spec a b); try discriminate
  | |- context [Req_bool ?a ?b] => destruct (Req_bool_spec a b); try discriminate
  end.

Lemma xleb_refl x : xisnan x = false -> xleb x x = true.
Proof. destruct x; simpl; intros; try discriminate; auto; xcases; auto; lra. Qed.

Lemma xleb_trans x y z : xleb x y = true -> xleb y z = true -> xleb x z = true.
Proof. destruct x, y, z; simpl; intros; try discriminate; auto; xcases; auto; lra. Qed.

Lemma xleb_antisym x y : xleb x y = true -> xleb y x = true -> x = y.
Proof. destruct x, y; simpl; intros; try discriminate; auto; xcases; auto; f_equal; lra. Qed.

Lemma xltb_leb x y : xltb x y = true -> xleb x y = true.
Proof. destruct x, y; simpl; intros; try discriminate; auto; xcases; auto; lra. Qed.

Lemma xltb_negb_leb x y :
  xisnan x = false -> xisnan y = false -> xltb x y = negb (xleb y x).
Proof. destruct x, y; simpl; intros; try discriminate; auto; xcases; auto; lra. Qed.

Lemma xleb_negb_ltb x y :
  xisnan x = false -> xisnan y = false -> xleb x y = negb (xltb y x).
Proof. destruct x, y; simpl; intros; try discriminate; auto; xcases; auto; lra. Qed.

Lemma xltb_leb_trans x y z : xltb x y = true -> xleb y z = true -> xltb x z = true.
Proof. destruct x, y, z; simpl; intros; try discriminate; auto; xcases; auto; lra. Qed.

Lemma xleb_ltb_trans x y z : xleb x y = true -> xltb y z = true -> xltb x z = true.
Proof. destruct x, y, z; simpl; intros; try discriminate; auto; xcases; auto; lra. Qed.

Lemma xltb_irrefl x : xltb x x = false.
Proof. destruct x; simpl; auto. xcases; auto; lra. Qed.

Lemma xleb_nan x y : xleb x y = true -> xisnan x = false /\ xisnan y = false.
Proof. destruct x, y; simpl; intros; try discriminate; auto. Qed.

Lemma xltb_nan x y : xltb x y = true -> xisnan x = false /\ xisnan y = false.
Proof. destruct x, y; simpl; intros; try discriminate; auto. Qed.

Lemma xltb_nan_l x y : xisnan x = true -> xltb x y = false.
Proof. destruct x; simpl; try discriminate; auto. Qed.

Lemma xltb_nan_r x y : xisnan y = true -> xltb x y = false.
Proof. destruct x, y; simpl; try discriminate; auto. Qed.

Lemma xleb_nan_l x y : xisnan x = true -> xleb x y = false.
Proof. destruct x; simpl; try discriminate; auto. Qed.

Lemma xleb_nan_r x y : xisnan y = true -> xleb x y = false.
Proof. destruct x, y; simpl; try discriminate; auto. Qed.

Lemma xleb_total x y : xisnan x = false -> xisnan y = false -> xleb x y = true \/ xleb y x = true.
Proof. destruct x, y; simpl; intros; try discriminate; auto. xcases; auto. lra. Qed.

Lemma xeqb_true x y : xeqb x y = true <-> x = y /\ xisnan x = false.
Proof.
  destruct x, y; simpl; split; intros H; try discriminate; auto; try (destruct H; congruence).
  - xcases; subst; auto.
  - destruct H as [H _]; injection H as ->. xcases; auto.
Qed.

Lemma xadd_nan x y : xisnan x = true -> xadd x y = XNaN.
Proof. destruct x, y; simpl; try discriminate; auto. Qed.

Lemma xadd_comm x y : xadd x y = xadd y x.
Proof. destruct x, y; simpl; auto. f_equal; lra. Qed.

Lemma xmul_comm x y : xmul x y = xmul y x.
Proof.
  destruct x, y; simpl; auto; try (f_equal; lra);
    try (unfold xinf_signed; destruct (Rcompare _ _); auto).
Qed.

(** ** The exact instance *)
Definition XRsem : numsem XR.
Proof.
  refine {| val := fun x : XR => (x : xr); rnd := fun x => x |}; simpl; intros; auto.
  - subst; split; intros.
    + destruct H as [H|H]; [destruct x; try discriminate; auto|subst; simpl].
      xcases; try lra. rewrite Rcompare_Eq; auto.
    + destruct x; simpl in *; try discriminate; auto;
      xcases; simpl; auto; try lra.
      destruct (Rcompare_spec r 0); simpl; auto. subst; congruence.
Defined.

Section Facts.
Context {O : numops} (S : numsem O).

Lemma ltb_irrefl (x : O) : n_ltb x x = false.
Proof. rewrite (val_ltb _ S). apply xltb_irrefl. Qed.

Lemma leb_refl (x : O) : n_isnan x = false -> n_leb x x = true.
Proof. rewrite (val_leb _ S), (val_isnan _ S). apply xleb_refl. Qed.

Lemma leb_trans (x y z : O) : n_leb x y = true -> n_leb y z = true -> n_leb x z = true.
Proof. rewrite !(val_leb _ S). apply xleb_trans. Qed.

Lemma ltb_leb (x y : O) : n_ltb x y = true -> n_leb x y = true.
Proof. rewrite (val_leb _ S), (val_ltb _ S). apply xltb_leb. Qed.

Lemma ltb_false_leb (x y : O) :
  n_isnan x = false -> n_isnan y = false -> n_ltb x y = false -> n_leb y x = true.
Proof.
  rewrite !(val_isnan _ S), (val_leb _ S), (val_ltb _ S). intros.
  rewrite xleb_negb_ltb by auto. rewrite H1; auto.
Qed.

Lemma leb_ltb_false (x y : O) : n_leb x y = true -> n_ltb y x = false.
Proof.
  rewrite (val_leb _ S), (val_ltb _ S). intros.
  destruct (xleb_nan _ _ H). rewrite xltb_negb_leb, H by auto. auto.
Qed.

Lemma ltb_nan (x y : O) : n_ltb x y = true -> n_isnan x = false /\ n_isnan y = false.
Proof. rewrite !(val_isnan _ S), (val_ltb _ S). apply xltb_nan. Qed.

Lemma leb_nan (x y : O) : n_leb x y = true -> n_isnan x = false /\ n_isnan y = false.
Proof. rewrite !(val_isnan _ S), (val_leb _ S). apply xleb_nan. Qed.

Lemma ltb_nan_l (x y : O) : n_isnan x = true -> n_ltb x y = false.
Proof. rewrite (val_isnan _ S), (val_ltb _ S). apply xltb_nan_l. Qed.

Lemma ltb_nan_r (x y : O) : n_isnan y = true -> n_ltb x y = false.
Proof. rewrite (val_isnan _ S), (val_ltb _ S). apply xltb_nan_r. Qed.

Lemma isnan_nan : n_isnan (n_nan : O) = true.
Proof. rewrite (val_isnan _ S), (val_nan _ S). auto. Qed.

Lemma isnan_ofZ z : (Z.abs z <= 2 ^ 53)%Z -> n_isnan (n_ofZ z : O) = false.
Proof. intros; rewrite (val_isnan _ S), (val_ofZ _ S) by auto. auto. Qed.

Lemma val_0 : val S (n_ofZ 0) = XFin 0.
Proof. apply (val_ofZ _ S). simpl; discriminate. Qed.

Lemma rnd_0 : rnd S (XFin 0) = XFin 0.
Proof. rewrite <- val_0. apply rnd_val. Qed.

Lemma sub_nan_l (x y : O) : n_isnan x = true -> n_isnan (n_sub x y) = true.
Proof.
  rewrite !(val_isnan _ S), (val_sub _ S), (rnd_nan _ S). unfold xsub.
  intros; rewrite xadd_nan; auto.
Qed.

Lemma sub_nan_r (x y : O) : n_isnan y = true -> n_isnan (n_sub x y) = true.
Proof.
  rewrite !(val_isnan _ S), (val_sub _ S), (rnd_nan _ S). unfold xsub.
  intros; rewrite xadd_comm, xadd_nan; auto. destruct (val S y); simpl in *; auto; discriminate.
Qed.
End Facts.
