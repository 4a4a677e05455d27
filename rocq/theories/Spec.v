(** Spec.v: what the matrices denote and what SpMV must compute.

    Nothing here refers to a storage format.  A matrix is a list of elements
    (repeated coordinates add up), and SpMV is specified twice:
    - [row_acc]: the exact sequence of additions performed on y[i], for a value
      type on which no law holds (floating point);
    - [y_plus_Ax]: y[i] + sum_j A(i,j) * x[j], for value types that form a
      commutative semiring. *)
From Verif Require Export Base SortSpec.
From Coq Require Export setoid_ring.Ring_theory.

(** A matrix element.  One record stands for Triplet and Element
    (include/typedefs.h:13-28): [blk] is the block field, which Triplet does not
    have and which has no meaning until block ids have been computed. *)
Record elem (T : Type) := Elem { row : nat; col : nat; val : T; blk : nat }.
Arguments Elem {T}. Arguments row {T}. Arguments col {T}. Arguments val {T}. Arguments blk {T}.

Section Spec.
  Context {T : Type}.
  Implicit Types E : list (elem T).

  (** all coordinates lie inside a rows x columns matrix *)
  Definition in_range (rows columns : nat) E : Prop :=
    Forall (fun e => row e < rows /\ col e < columns) E.

  (** the same elements up to order and up to the block field *)
  Definition coords (e : elem T) : nat * nat * T := (row e, col e, val e).
  Definition same_elements E E' : Prop := (coords <$> E) ≡ₚ (coords <$> E').

  (** no two elements have the same coordinates *)
  Definition distinct_coords E : Prop := NoDup ((fun e => (row e, col e)) <$> E).

  Context `{Scalar T}.

  (** x[j] (0 outside the vector, never used by theorems outside of it) *)
  Definition at_ (x : list T) (j : nat) : T := nth j x s0.
  Definition in_row (i : nat) (e : elem T) : bool := row e =? i.
  (** acc + v1*x[c1] + v2*x[c2] + ..., in this order, over the elements of row i *)
  Definition accum (x : list T) (acc : T) (e : elem T) : T := sadd acc (smul (val e) (at_ x (col e))).
  Definition row_acc E (x : list T) (i : nat) (acc : T) : T :=
    fold_left (accum x) (bfilter (in_row i) E) acc.
  (** y after SpMV, adding the elements of every row in the order of [E] *)
  Definition spmv_in_order E (x y : list T) : list T := imap (fun i yi => row_acc E x i yi) y.
  (** the same with each row added by increasing column, ties in the order of [E] *)
  Definition spmv_by_column E (x y : list T) : list T := spmv_in_order (isort (bykey col) E) x y.

  (** sums *)
  Definition sum (l : list T) : T := fold_right sadd s0 l.
  Definition entry E (i j : nat) : T :=
    sum (val <$> bfilter (fun e => (row e =? i) && (col e =? j)) E).
  (** the value of the last element at (i,j), 0 if there is none *)
  Definition last_entry E (i j : nat) : T :=
    fold_left (fun acc e => if (row e =? i) && (col e =? j) then val e else acc) E s0.
  (** (A x)[i] for a matrix with [columns] columns *)
  Definition dot E (columns : nat) (x : list T) (i : nat) : T :=
    sum ((fun j => smul (entry E i j) (at_ x j)) <$> seq 0 columns).
  Definition y_plus_Ax E (columns : nat) (x y : list T) : list T :=
    imap (fun i yi => sadd yi (dot E columns x i)) y.
End Spec.

(** A division of 0 .. n-1 into [nb] consecutive blocks: block b holds the indices
    off[b] .. off[b+1]-1 (blocks may be empty). *)
Definition blocking (off : list nat) (nb n : nat) : Prop :=
  length off = S nb /\ nth 0 off 0 = 0 /\ nth nb off 0 = n /\
  forall b, b < nb -> nth b off 0 <= nth (S b) off 0.
Definition in_block (off : list nat) (b i : nat) : Prop := nth b off 0 <= i < nth (S b) off 0.

(** [n] is the number of different values in [K] *)
Definition distinct_count (K : list nat) (n : nat) : Prop :=
  exists D, NoDup D /\ (forall k, k ∈ D <-> k ∈ K) /\ length D = n.
(** the number of maximal runs of equal values *)
Fixpoint runs (K : list nat) : nat :=
  match K with
  | [] => 0
  | k :: K' => match K' with [] => 1 | k' :: _ => (if k =? k' then 0 else 1) + runs K' end
  end.

(** exact arithmetic: a commutative semiring with the usual names *)
Definition exact_arith (T : Type) `{Scalar T} (one : T) : Prop :=
  semi_ring_theory s0 one sadd smul (@eq T).

(** Z is an instance (used for the non-vacuity examples) *)
From Coq Require Import ZArith.
Global Instance scalar_Z : Scalar Z := {| s0 := 0%Z; sadd := Z.add; smul := Z.mul |}.
Lemma exact_Z : exact_arith Z 1%Z.
Proof. constructor; intros; unfold s0, sadd, smul; simpl; ring. Qed.

(** ** Elementary facts *)
Section SpecFacts.
  Context {T : Type} `{Scalar T}.
  Implicit Types E : list (elem T).

  Lemma bfilter_app {A} (f : A -> bool) (l1 l2 : list A) : bfilter f (l1 ++ l2) = bfilter f l1 ++ bfilter f l2.
  Proof. induction l1 as [|a l1 IH]; simpl; [done|]. destruct (f a); simpl; by rewrite IH. Qed.
  Lemma bfilter_perm {A} (f : A -> bool) (l1 l2 : list A) : l1 ≡ₚ l2 -> bfilter f l1 ≡ₚ bfilter f l2.
  Proof.
    induction 1 as [|a l1 l2 _ IH|a b l|l1 l2 l3 _ IH1 _ IH2]; simpl; try done.
    - destruct (f a); [by constructor|done].
    - destruct (f a), (f b); try done. constructor.
    - by etrans.
  Qed.
  Lemma row_acc_app E1 E2 x i acc : row_acc (E1 ++ E2) x i acc = row_acc E2 x i (row_acc E1 x i acc).
  Proof. unfold row_acc. rewrite bfilter_app. apply fold_left_app. Qed.
  Lemma row_acc_nil x i acc : row_acc [] x i acc = acc.
  Proof. done. Qed.
  Lemma row_acc_cons e E x i acc :
    row_acc (e :: E) x i acc = if row e =? i then row_acc E x i (accum x acc e) else row_acc E x i acc.
  Proof. unfold row_acc. simpl. unfold in_row at 1. by destruct (row e =? i). Qed.
  Lemma row_acc_none E x i acc : Forall (fun e => row e <> i) E -> row_acc E x i acc = acc.
  Proof.
    unfold row_acc. intros Hf. replace (bfilter (in_row i) E) with (@nil (elem T)); [done|].
    induction Hf as [|e E Hne _ IH]; simpl; [done|]. unfold in_row at 1.
    by rewrite (proj2 (Nat.eqb_neq _ _)).
  Qed.
  (** only the row's elements, in order, matter *)
  Lemma row_acc_row E E' x i acc : bfilter (in_row i) E = bfilter (in_row i) E' -> row_acc E x i acc = row_acc E' x i acc.
  Proof. unfold row_acc. by intros ->. Qed.
  (** ... and only coordinates and values *)
  Lemma row_acc_coords E E' x i acc : coords <$> E = coords <$> E' -> row_acc E x i acc = row_acc E' x i acc.
  Proof.
    revert E' acc. induction E as [|e E IH]; intros [|e' E'] acc Heq; try done.
    cbn in Heq. injection Heq as H1 H2 H3 H4. rewrite !row_acc_cons. rewrite H1.
    assert (accum x acc e = accum x acc e') as -> by (unfold accum; by rewrite H2, H3).
    rewrite (IH E') by done. by rewrite (IH E').
  Qed.
  Lemma spmv_in_order_length E x y : length (spmv_in_order E x y) = length y.
  Proof. apply imap_length. Qed.

  (** ** exact arithmetic *)
  Section exact.
    Context (one : T) (SR : semi_ring_theory s0 one sadd smul (@eq T)).
    Add Ring SRing : SR.

    Lemma sum_cons a l : sum (a :: l) = sadd a (sum l).
    Proof. done. Qed.
    Lemma sum_app l1 l2 : sum (l1 ++ l2) = sadd (sum l1) (sum l2).
    Proof. induction l1 as [|a l1 IH]; simpl; [|rewrite IH]; ring. Qed.
    Lemma sum_perm l1 l2 : l1 ≡ₚ l2 -> sum l1 = sum l2.
    Proof.
      induction 1 as [|a l1 l2 _ IH|a b l|l1 l2 l3 _ IH1 _ IH2]; simpl; try done.
      - by rewrite IH.
      - ring.
      - by rewrite IH1.
    Qed.
    Lemma sum_zero {A} (f : A -> T) (l : list A) : (forall a, a ∈ l -> f a = s0) -> sum (f <$> l) = s0.
    Proof.
      induction l as [|a l IH]; intros Hf; [done|]. rewrite fmap_cons, sum_cons.
      rewrite (Hf a) by left. rewrite IH by (intros; apply Hf; by right). ring.
    Qed.
    Lemma sum_add {A} (f g : A -> T) (l : list A) :
      sum ((fun a => sadd (f a) (g a)) <$> l) = sadd (sum (f <$> l)) (sum (g <$> l)).
    Proof.
      induction l as [|a l IH]; [cbn; ring|]. rewrite !fmap_cons, !sum_cons, IH. ring.
    Qed.
    Lemma sum_ext {A} (f g : A -> T) (l : list A) : (forall a, a ∈ l -> f a = g a) -> sum (f <$> l) = sum (g <$> l).
    Proof.
      induction l as [|a l IH]; intros Hf; [done|]. rewrite !fmap_cons, !sum_cons, (Hf a) by left.
      f_equal. apply IH. intros; apply Hf; by right.
    Qed.
    (** a sum with one non-zero term *)
    Lemma sum_single (f : nat -> T) n c : c < n -> (forall j, j < n -> j <> c -> f j = s0) ->
      sum (f <$> seq 0 n) = f c.
    Proof.
      intros Hc Hf. replace n with (c + (1 + (n - S c))) by lia. rewrite !seq_app, !fmap_app, !sum_app.
      rewrite (sum_zero f (seq 0 c)), (sum_zero f (seq _ (n - S c))).
      - cbn. ring.
      - intros j Hj%elem_of_seq. apply Hf; lia.
      - intros j Hj%elem_of_seq. apply Hf; lia.
    Qed.

    Definition terms E (x : list T) i : list T :=
      (fun e => smul (val e) (at_ x (col e))) <$> bfilter (in_row i) E.
    Lemma row_acc_sum E x i acc : row_acc E x i acc = sadd acc (sum (terms E x i)).
    Proof.
      unfold row_acc, terms. revert acc. induction (bfilter (in_row i) E) as [|e l IH]; intros acc.
      - cbn. ring.
      - rewrite fmap_cons, sum_cons. cbn [fold_left]. rewrite IH. unfold accum. ring.
    Qed.
    Lemma row_acc_perm E E' x i acc : E ≡ₚ E' -> row_acc E x i acc = row_acc E' x i acc.
    Proof. intros HE. rewrite !row_acc_sum. f_equal. apply sum_perm. unfold terms. by rewrite (bfilter_perm _ _ _ HE). Qed.
    Lemma entry_cons e E i j :
      entry (e :: E) i j = if (row e =? i) && (col e =? j) then sadd (val e) (entry E i j) else entry E i j.
    Proof. unfold entry. cbn. by destruct ((row e =? i) && (col e =? j)). Qed.
    Lemma dot_nil columns x i : dot [] columns x i = s0.
    Proof. unfold dot. apply sum_zero. intros j _. unfold entry. cbn. ring. Qed.
    Lemma dot_cons e E columns x i : col e < columns ->
      dot (e :: E) columns x i =
      if row e =? i then sadd (smul (val e) (at_ x (col e))) (dot E columns x i) else dot E columns x i.
    Proof.
      intros Hc. unfold dot.
      destruct (row e =? i) eqn:Er.
      - assert (Hs : sum ((fun j => if col e =? j then smul (val e) (at_ x j) else s0) <$> seq 0 columns) = smul (val e) (at_ x (col e))).
        { rewrite (sum_single _ columns (col e)); [by rewrite Nat.eqb_refl|done|].
          intros j _ Hne. by rewrite (proj2 (Nat.eqb_neq (col e) j)) by done. }
        rewrite <- Hs, <- sum_add. apply sum_ext. intros j _. rewrite entry_cons, Er.
        destruct (col e =? j); simpl; ring.
      - apply sum_ext. intros j _. by rewrite entry_cons, Er.
    Qed.
    Lemma sum_terms_dot E columns x i : Forall (fun e => col e < columns) E -> sum (terms E x i) = dot E columns x i.
    Proof.
      induction E as [|e E IH]; intros HE; [by rewrite dot_nil|].
      inversion_clear HE. rewrite dot_cons by done. rewrite <- IH by done.
      unfold terms. cbn. unfold in_row at 1. by destruct (row e =? i).
    Qed.
    Lemma row_acc_dot rows E columns x i acc : in_range rows columns E -> row_acc E x i acc = sadd acc (dot E columns x i).
    Proof.
      intros HE. rewrite row_acc_sum. f_equal. apply sum_terms_dot.
      eapply Forall_impl; [exact HE|]. simpl. tauto.
    Qed.
    Lemma spmv_in_order_exact rows E columns x y : in_range rows columns E ->
      spmv_in_order E x y = y_plus_Ax E columns x y.
    Proof. intros HE. apply imap_ext. intros i v _. by eapply row_acc_dot. Qed.
    Lemma entry_perm E E' i j : E ≡ₚ E' -> entry E i j = entry E' i j.
    Proof. intros HE. unfold entry. apply sum_perm. by rewrite (bfilter_perm _ _ _ HE). Qed.
    Lemma y_plus_Ax_perm E E' columns x y : E ≡ₚ E' -> y_plus_Ax E columns x y = y_plus_Ax E' columns x y.
    Proof.
      intros HE. apply imap_ext. intros i v _. f_equal. unfold dot. apply sum_ext. intros j _.
      by rewrite (entry_perm _ _ _ _ HE).
    Qed.
    Lemma spmv_by_column_exact rows E columns x y : in_range rows columns E ->
      spmv_by_column E x y = y_plus_Ax E columns x y.
    Proof.
      intros HE. unfold spmv_by_column. rewrite (spmv_in_order_exact rows (isort (bykey col) E) columns).
      - apply y_plus_Ax_perm. apply isort_perm.
      - unfold in_range. by rewrite isort_perm.
    Qed.
  End exact.
End SpecFacts.
