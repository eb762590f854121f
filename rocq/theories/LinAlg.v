(** * Inverting a real matrix by elimination: either the inverse or a vector that is mapped to 0 *)
From Coq Require Import List ZArith Bool Reals Lra Lia.
From Verif Require Import Base Num RealSpec RealStat SpecGram_proofs5.
Import ListNotations.
Local Open Scope R_scope.

Definition delta (i j : nat) : R := if Nat.eqb i j then 1 else 0.
(** product of matrices and of a matrix with a vector *)
Definition mm (N : nat) (A B : nat -> nat -> R) (i j : nat) : R := tot (fun k => A i k * B k j) N.
Definition mv (N : nat) (A : nat -> nat -> R) (v : nat -> R) (i : nat) : R := tot (fun k => A i k * v k) N.

Lemma delta_same i : delta i i = 1.
Proof. unfold delta. rewrite Nat.eqb_refl. reflexivity. Qed.
Lemma delta_diff i j : i <> j -> delta i j = 0.
Proof. intros. unfold delta. destruct (Nat.eqb_spec i j); [contradiction|reflexivity]. Qed.

Lemma tot_zero n : tot (fun _ => 0) n = 0.
Proof. rewrite (tot_ext _ (fun _ => 0 * 0)) by (intros; ring). rewrite tot_scal. ring. Qed.
Lemma tot_delta_l (g : nat -> R) i n : (i < n)%nat -> tot (fun k => delta i k * g k) n = g i.
Proof.
  intros. rewrite (tot_single _ i n H); [rewrite delta_same; ring|]. intros j Hj Hn. rewrite delta_diff by auto. ring.
Qed.
Lemma tot_delta_r (g : nat -> R) i n : (i < n)%nat -> tot (fun k => g k * delta k i) n = g i.
Proof.
  intros. rewrite (tot_single _ i n H); [rewrite delta_same; ring|]. intros j Hj Hn. rewrite delta_diff by auto. ring.
Qed.

Lemma mm_mv N A B v i : mv N (mm N A B) v i = mv N A (mv N B v) i.
Proof.
  unfold mv, mm. rewrite (tot_ext (fun k => tot (fun l => A i l * B l k) N * v k) (fun k => tot (fun l => A i l * (B l k * v k)) N)).
  - rewrite tot_swap. apply tot_ext. intros l Hl. rewrite <- tot_scal. reflexivity.
  - intros k Hk. rewrite Rmult_comm, <- tot_scal. apply tot_ext. intros. ring.
Qed.
Lemma mm_assoc N A B C i j : mm N (mm N A B) C i j = mm N A (mm N B C) i j.
Proof. apply (mm_mv N A B (fun k => C k j) i). Qed.
Lemma mv_ext N A v w i : (forall k, (k < N)%nat -> v k = w k) -> mv N A v i = mv N A w i.
Proof. intros H. apply tot_ext. intros k Hk. rewrite H by auto. reflexivity. Qed.

Definition injective N (E : nat -> nat -> R) := forall v, (forall i, (i < N)%nat -> mv N E v i = 0) -> forall i, (i < N)%nat -> v i = 0.

(** add [u i] times row [k] to every row [i] *)
Definition rowop (u : nat -> R) (k : nat) (E : nat -> nat -> R) (i j : nat) : R := E i j + u i * E k j.

Lemma rowop_mv N u k E v i : mv N (rowop u k E) v i = mv N E v i + u i * mv N E v k.
Proof.
  unfold mv, rowop. rewrite <- tot_scal, <- tot_add. apply tot_ext. intros. ring.
Qed.
Lemma rowop_mm N u k E A i j : mm N (rowop u k E) A i j = mm N E A i j + u i * mm N E A k j.
Proof. apply (rowop_mv N u k E (fun l => A l j) i). Qed.
Lemma rowop_injective N u k E : (k < N)%nat -> 1 + u k <> 0 -> injective N E -> injective N (rowop u k E).
Proof.
  intros Hk Hu HE v Hv. apply HE.
  assert (K : mv N E v k = 0).
  { specialize (Hv k Hk). rewrite rowop_mv in Hv. assert (P : (1 + u k) * mv N E v k = 0) by lra.
    apply Rmult_integral in P. destruct P; [contradiction|auto]. }
  intros i Hi. specialize (Hv i Hi). rewrite rowop_mv, K in Hv. lra.
Qed.

Lemma find_pivot (f : nat -> R) N k : (k <= N)%nat -> {p | (k <= p < N)%nat /\ f p <> 0} + {forall p, (k <= p < N)%nat -> f p = 0}.
Proof.
  intros H. remember (N - k)%nat as m eqn:Em. revert k H Em. induction m; intros k H Em.
  - right. intros p Hp. lia.
  - destruct (Req_EM_T (f k) 0) as [E|E]; [|left; exists k; split; [lia|exact E]].
    destruct (IHm (S k)) as [[p [P1 P2]]|P]; [lia|lia|left; exists p; split; [lia|exact P2]|].
    right. intros p Hp. destruct (Nat.eq_dec p k) as [->|]; [exact E|apply P; lia].
Qed.

Definition kernel N (A : nat -> nat -> R) (v : nat -> R) := (exists i, (i < N)%nat /\ v i <> 0) /\ forall i, (i < N)%nat -> mv N A v i = 0.
Definition inverse N (A B : nat -> nat -> R) := forall i j, (i < N)%nat -> (j < N)%nat -> mm N A B i j = delta i j /\ mm N B A i j = delta i j.

Lemma eliminate N A k : (k <= N)%nat ->
  {E | injective N E /\ forall i j, (i < N)%nat -> (j < k)%nat -> mm N E A i j = delta i j} + {v | kernel N A v}.
Proof.
  induction k as [|k IH]; intros Hk.
  - left. exists delta. split; [|intros; lia]. intros v Hv i Hi. rewrite <- (Hv i Hi). unfold mv. symmetry. apply tot_delta_l. exact Hi.
  - destruct IH as [[E [EI EC]]|K]; [lia| |right; exact K].
    destruct (find_pivot (fun i => mm N E A i k) N k) as [[p [P1 P2]]|P]; [lia| |].
    + left.
      (* a non-zero entry in row k *)
      assert (T : {E1 | injective N E1 /\ (forall i j, (i < N)%nat -> (j < k)%nat -> mm N E1 A i j = delta i j) /\ mm N E1 A k k <> 0}).
      { destruct (Req_EM_T (mm N E A k k) 0) as [Z|Z]; [|exists E; auto].
        assert (PK : p <> k) by (intros ->; contradiction).
        exists (rowop (fun i => delta i k) p E). split; [|split].
        - apply rowop_injective; [lia| |exact EI]. rewrite delta_diff by auto. lra.
        - intros i j Hi Hj. rewrite rowop_mm, EC, EC by lia. rewrite (delta_diff p j) by lia. ring.
        - rewrite rowop_mm, Z, delta_same. intros C. apply P2. lra. }
      destruct T as [E1 [I1 [C1 N1]]]. set (c := mm N E1 A k k) in *.
      exists (rowop (fun i => if Nat.eqb i k then / c - 1 else - (mm N E1 A i k / c)) k E1). split.
      * apply rowop_injective; [lia| |exact I1]. rewrite Nat.eqb_refl. replace (1 + (/ c - 1)) with (/ c) by ring. apply Rinv_neq_0_compat. exact N1.
      * intros i j Hi Hj. rewrite rowop_mm. destruct (Nat.eq_dec j k) as [->|NE].
        -- fold c. destruct (Nat.eqb_spec i k) as [->|Ni]; [rewrite delta_same; fold c; field; exact N1|].
           rewrite delta_diff by auto. field. exact N1.
        -- rewrite (C1 i j), (C1 k j) by lia. rewrite (delta_diff k j) by auto. ring.
    + right. exists (fun j => delta j k - (if Nat.ltb j k then mm N E A j k else 0)). split.
      * exists k. split; [lia|]. rewrite delta_same, Nat.ltb_irrefl. lra.
      * intros i Hi. revert i Hi. apply EI. intros i Hi. rewrite <- mm_mv. unfold mv.
        rewrite (tot_ext _ (fun j => mm N E A i j * delta j k + (-1) * (if Nat.ltb j k then delta i j * mm N E A j k else 0))).
        -- rewrite tot_add, tot_scal, tot_delta_r by lia.
           destruct (Nat.ltb_spec i k) as [L|L].
           ++ rewrite (tot_single _ i N Hi); [|intros j Hj Hn; destruct (Nat.ltb j k); [rewrite delta_diff by auto; ring|reflexivity]].
              rewrite (proj2 (Nat.ltb_lt i k) L), delta_same. ring.
           ++ rewrite P by lia. rewrite (tot_ext _ (fun _ => 0)); [rewrite tot_zero; ring|].
              intros j Hj. destruct (Nat.ltb_spec j k); [rewrite delta_diff by lia; ring|reflexivity].
        -- intros j Hj. destruct (Nat.ltb_spec j k); [rewrite (EC i j) by lia; ring|ring].
Qed.

Theorem invert N A : {B | inverse N A B} + {v | kernel N A v}.
Proof.
  destruct (eliminate N A N) as [[E [EI EC]]|K]; [lia| |right; exact K]. left. exists E. intros i j Hi Hj.
  split; [|apply EC; auto].
  assert (Z : mm N A E i j - delta i j = 0); [|lra].
  revert i Hi. apply EI. intros i Hi. unfold mv.
  rewrite (tot_ext _ (fun k => E i k * mm N A E k j + (-1) * (E i k * delta k j))) by (intros; ring).
  rewrite tot_add, tot_scal, tot_delta_r by auto.
  change (tot (fun k => E i k * mm N A E k j) N) with (mm N E (mm N A E) i j). rewrite <- mm_assoc.
  unfold mm at 1. rewrite (tot_ext _ (fun k => delta i k * E k j)) by (intros; rewrite EC by auto; reflexivity).
  rewrite tot_delta_l by auto. ring.
Qed.

(** a matrix with an inverse maps only 0 to 0 *)
Lemma inverse_injective N A B v : inverse N A B -> (forall i, (i < N)%nat -> mv N A v i = 0) -> forall i, (i < N)%nat -> v i = 0.
Proof.
  intros I Z i Hi. transitivity (mv N B (mv N A v) i).
  - rewrite <- mm_mv. unfold mv. rewrite (tot_ext _ (fun k => delta i k * v k)) by (intros k Hk; rewrite (proj2 (I i k Hi Hk)); reflexivity).
    rewrite tot_delta_l by auto. reflexivity.
  - unfold mv at 1. rewrite (tot_ext _ (fun _ => 0)) by (intros; rewrite Z by auto; ring). apply tot_zero.
Qed.

(** the solution *)
Lemma inverse_solves N A B b : inverse N A B -> forall i, (i < N)%nat -> mv N A (mv N B b) i = b i.
Proof.
  intros I i Hi. rewrite <- mm_mv. unfold mv. rewrite (tot_ext _ (fun k => delta i k * b k)) by (intros k Hk; rewrite (proj1 (I i k Hi Hk)); reflexivity).
  apply tot_delta_l. exact Hi.
Qed.
Lemma inverse_unique N A B b w : inverse N A B -> (forall i, (i < N)%nat -> mv N A w i = b i) -> forall i, (i < N)%nat -> mv N B b i = w i.
Proof.
  intros I H i Hi. assert (Z : mv N B b i - w i = 0); [|lra]. revert i Hi. apply (inverse_injective N A B _ I). intros i Hi.
  unfold mv at 1. rewrite (tot_ext _ (fun k => A i k * mv N B b k + (-1) * (A i k * w k))) by (intros; ring).
  rewrite tot_add, tot_scal. fold (mv N A (mv N B b) i) (mv N A w i). rewrite (inverse_solves N A B b I i Hi), (H i Hi). ring.
Qed.
