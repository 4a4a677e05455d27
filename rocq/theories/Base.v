(** Base.v: outcomes, arrays, loops and the total-correctness predicate [wp].

    Everything else in the model is written in the vocabulary of this file.
    Nothing here models a particular file of /repo; it fixes how C++ is read:

    - undefined behaviour is an outcome of its own ([Undef]), never a value;
    - an [assert] that does not hold aborts ([Abort]); the Makefile
      (/repo/Makefile) never defines NDEBUG, so assertions are live;
    - a C array is a list of cells, a cell is [None] until it is written
      ([new T[n]] leaves cells uninitialised, [new T[n]()] and calloc do not);
    - a loop whose trip count is not known in advance carries fuel, and running
      out of fuel is an outcome of its own ([Diverge]) that every positive
      theorem excludes. *)
From stdpp Require Export prelude list gmap numbers sorting.
From Coq Require Export Lia.
Global Arguments Nat.div : simpl never.
Global Arguments Nat.modulo : simpl never.

Inductive ub : Type :=
  | OutOfBounds      (* access outside an allocated array *)
  | Uninit           (* read of a cell that was never written *)
  | DivByZero
  | BadShift         (* shift count not below the width *)
  | BadFree          (* deallocator does not match, double free, double close *)
  | BufferOverflow   (* C string written past its buffer *)
  | Overflow.        (* a number its type cannot represent *)

Inductive outcome (A : Type) : Type :=
  | Ok (a : A)
  | Undef (u : ub)
  | Abort
  | Diverge.
Arguments Ok {A} a.
Arguments Undef {A} u.
Arguments Abort {A}.
Arguments Diverge {A}.

Global Instance outcome_ret : MRet outcome := fun A a => Ok a.
Global Instance outcome_bind : MBind outcome := fun A B f m =>
  match m with
  | Ok a => f a
  | Undef u => Undef u
  | Abort => Abort
  | Diverge => Diverge
  end.

(** [wp m Q]: [m] ends normally and its result satisfies [Q]. *)
Definition wp {A} (m : outcome A) (Q : A -> Prop) : Prop :=
  match m with Ok a => Q a | _ => False end.

Lemma wp_ok {A} (a : A) (Q : A -> Prop) : Q a -> wp (Ok a) Q.
Proof. intros H; exact H. Qed.
Lemma wp_bind {A B} (m : outcome A) (f : A -> outcome B) (Q : B -> Prop) :
  wp m (fun a => wp (f a) Q) -> wp (m ≫= f) Q.
Proof. destruct m; simpl; tauto. Qed.
Lemma wp_mono {A} (m : outcome A) (P Q : A -> Prop) :
  wp m P -> (forall a, P a -> Q a) -> wp m Q.
Proof. destruct m; simpl; intros H HPQ; try tauto. by apply HPQ. Qed.
Lemma wp_exists {A} (m : outcome A) (Q : A -> Prop) :
  wp m Q <-> exists a, m = Ok a /\ Q a.
Proof.
  split.
  - destruct m as [a| | |]; simpl; try tauto. eauto.
  - intros (a & -> & H). exact H.
Qed.
Lemma wp_eq {A} (m : outcome A) (a : A) : wp m (fun r => r = a) <-> m = Ok a.
Proof. rewrite wp_exists. split; [intros (b & -> & ->); done | intros ->; eauto]. Qed.

(** ** Arrays *)
Notation arr A := (list (option A)).

(** [new T[n]]: cells without a value. *)
Definition new_arr {A} (n : nat) : arr A := replicate n None.
(** [new T[n]()] / calloc: every cell holds the zero value. *)
Definition new_arr0 {A} (z : A) (n : nat) : arr A := replicate n (Some z).
(** an array whose every cell has been written *)
Definition full {A} (l : list A) : arr A := Some <$> l.

Definition aget {A} (a : arr A) (i : nat) : outcome A :=
  match a !! i with
  | None => Undef OutOfBounds
  | Some None => Undef Uninit
  | Some (Some v) => Ok v
  end.
Definition aset {A} (a : arr A) (i : nat) (v : A) : outcome (arr A) :=
  if decide (i < length a) then Ok (<[i := Some v]> a) else Undef OutOfBounds.
(** read of a fully written array given as a plain list *)
Definition lget {A} (l : list A) (i : nat) : outcome A :=
  match l !! i with None => Undef OutOfBounds | Some v => Ok v end.
Definition lset {A} (l : list A) (i : nat) (v : A) : outcome (list A) :=
  if decide (i < length l) then Ok (<[i := v]> l) else Undef OutOfBounds.

Lemma full_length {A} (l : list A) : length (full l) = length l.
Proof. apply fmap_length. Qed.
Lemma full_lookup {A} (l : list A) i : full l !! i = Some <$> (l !! i).
Proof. apply list_lookup_fmap. Qed.
Lemma full_insert {A} (l : list A) i v : <[i := Some v]> (full l) = full (<[i := v]> l).
Proof. unfold full. by rewrite list_fmap_insert. Qed.
Lemma full_inj {A} (l1 l2 : list A) : full l1 = full l2 -> l1 = l2.
Proof. unfold full. intros H. by apply (inj (fmap Some)) in H. Qed.

Lemma wp_aget {A} (a : arr A) i v (Q : A -> Prop) :
  a !! i = Some (Some v) -> Q v -> wp (aget a i) Q.
Proof. intros H HQ. unfold aget. by rewrite H. Qed.
Lemma aget_full {A} (l : list A) i : aget (full l) i = lget l i.
Proof. unfold aget, lget. rewrite full_lookup. by destruct (l !! i). Qed.
Lemma lget_some {A} (l : list A) i v : l !! i = Some v -> lget l i = Ok v.
Proof. unfold lget. by intros ->. Qed.
Lemma wp_lget {A} (l : list A) i v (Q : A -> Prop) :
  l !! i = Some v -> Q v -> wp (lget l i) Q.
Proof. intros H HQ. unfold lget. by rewrite H. Qed.
Lemma wp_aset {A} (a : arr A) i v (Q : arr A -> Prop) :
  i < length a -> Q (<[i := Some v]> a) -> wp (aset a i v) Q.
Proof. intros H HQ. unfold aset. by rewrite decide_True. Qed.
Lemma aset_ok {A} (a : arr A) i v : i < length a -> aset a i v = Ok (<[i := Some v]> a).
Proof. intros H. unfold aset. by rewrite decide_True. Qed.
Lemma wp_lset {A} (l : list A) i v (Q : list A -> Prop) :
  i < length l -> Q (<[i := v]> l) -> wp (lset l i v) Q.
Proof. intros H HQ. unfold lset. by rewrite decide_True. Qed.
Lemma aset_full {A} (l : list A) i v : i < length l -> aset (full l) i v = Ok (full (<[i := v]> l)).
Proof. intros H. rewrite aset_ok by (by rewrite full_length). by rewrite full_insert. Qed.

(** ** Assertions *)
Definition assert_ (b : bool) : outcome unit := if b then Ok tt else Abort.
Lemma wp_assert b (Q : unit -> Prop) : b = true -> Q tt -> wp (assert_ b) Q.
Proof. by intros ->. Qed.

(** ** Counted loops: [for (i = lo; i < hi; i++) st = body i st] *)
Fixpoint for_n {S} (n : nat) (lo : nat) (body : nat -> S -> outcome S) (st : S) : outcome S :=
  match n with
  | O => Ok st
  | S n' => st' ← body lo st; for_n n' (Datatypes.S lo) body st'
  end.
Definition for_range {S} (lo hi : nat) (body : nat -> S -> outcome S) (st : S) : outcome S :=
  for_n (hi - lo) lo body st.

(** The loop-invariant rule. *)
Lemma wp_for_n {S} (I : nat -> S -> Prop) n lo (body : nat -> S -> outcome S) st :
  I lo st ->
  (forall i s, lo <= i < lo + n -> I i s -> wp (body i s) (I (Datatypes.S i))) ->
  wp (for_n n lo body st) (I (lo + n)).
Proof.
  revert lo st. induction n as [|n IH]; intros lo st H0 Hs; cbn [for_n].
  - simpl. by rewrite Nat.add_0_r.
  - apply wp_bind. eapply wp_mono; [apply Hs; [lia|exact H0]|].
    intros s' Hs'. replace (lo + Datatypes.S n) with (Datatypes.S lo + n) by lia.
    apply IH; [exact Hs'|]. intros i s Hi. apply Hs. lia.
Qed.
Lemma wp_for_range {S} (I : nat -> S -> Prop) lo hi (body : nat -> S -> outcome S) st :
  lo <= hi -> I lo st ->
  (forall i s, lo <= i < hi -> I i s -> wp (body i s) (I (Datatypes.S i))) ->
  wp (for_range lo hi body st) (I hi).
Proof.
  intros Hle H0 Hs. unfold for_range.
  replace hi with (lo + (hi - lo)) at 2 by lia.
  apply wp_for_n; [exact H0|]. intros i s Hi. apply Hs. lia.
Qed.
Lemma for_range_empty {S} lo hi (body : nat -> S -> outcome S) st :
  hi <= lo -> for_range lo hi body st = Ok st.
Proof. intros H. unfold for_range. by replace (hi - lo) with 0 by lia. Qed.
Lemma for_range_step {S} lo hi (body : nat -> S -> outcome S) st :
  lo < hi -> for_range lo hi body st = (st' ← body lo st; for_range (Datatypes.S lo) hi body st').
Proof.
  intros H. unfold for_range. replace (hi - lo) with (Datatypes.S (hi - Datatypes.S lo)) by lia.
  done.
Qed.
Lemma for_n_ext {S} n lo (b1 b2 : nat -> S -> outcome S) st :
  (forall i s, lo <= i < lo + n -> b1 i s = b2 i s) ->
  for_n n lo b1 st = for_n n lo b2 st.
Proof.
  revert lo st. induction n as [|n IH]; intros lo st H; cbn [for_n]; [done|].
  rewrite H by lia. destruct (b2 lo st); simpl; try done. apply IH. intros i s Hi. apply H. lia.
Qed.

(** ** Fuelled loops: [while (cond st) st = body st] *)
Fixpoint while_ {S} (fuel : nat) (cond : S -> outcome bool) (body : S -> outcome S) (st : S) : outcome S :=
  match fuel with
  | O => Diverge
  | S f => b ← cond st; if (b : bool) then st' ← body st; while_ f cond body st' else Ok st
  end.

Lemma wp_while {S} (I : S -> Prop) (m : S -> nat) fuel (cond : S -> outcome bool) (body : S -> outcome S) st :
  I st -> m st < fuel ->
  (forall s, I s -> wp (cond s) (fun b => b = true -> wp (body s) (fun s' => I s' /\ m s' < m s))) ->
  wp (while_ fuel cond body st) (fun s => I s /\ cond s = Ok false).
Proof.
  revert st. induction fuel as [|f IH]; intros st HI Hm Hstep; [lia|]. cbn [while_].
  pose proof (Hstep st HI) as Hs. destruct (cond st) as [b| | |] eqn:E; simpl in Hs; try done.
  simpl. destruct b; [|by split].
  specialize (Hs eq_refl). apply wp_bind. eapply wp_mono; [exact Hs|]. intros s' [HI' Hm'].
  apply IH; [done|lia|done].
Qed.

(** ** Index arithmetic.
    The template parameter IT (INDEXTYPE, include/params.h:12-14, uint32_t by
    default) is an unsigned type; [itW] is the number of its values (2^32 by
    default), [sitW] that of the short index type (SMALLINDEXTYPE, 2^16).
    The model is for index types at least as wide as [int], so no promotion to
    a signed type takes place. *)
Class Widths := { itW : nat; sitW : nat }.
Definition wrap `{Widths} (n : nat) : nat := n mod itW.
Definition swrap `{Widths} (n : nat) : nat := n mod sitW.
Definition wadd `{Widths} (a b : nat) : nat := wrap (a + b).
Definition wmul `{Widths} (a b : nat) : nat := wrap (a * b).
(** a - b on an unsigned type, for a, b < itW *)
Definition wsub `{Widths} (a b : nat) : nat := wrap (a + (itW - b)).

Lemma wrap_small `{Widths} n : n < itW -> wrap n = n.
Proof. intros. unfold wrap. by apply Nat.mod_small. Qed.
Lemma swrap_small `{Widths} n : n < sitW -> swrap n = n.
Proof. intros. unfold swrap. by apply Nat.mod_small. Qed.
Lemma wsub_small `{Widths} a b : b <= a -> a < itW -> wsub a b = a - b.
Proof.
  intros H1 H2. unfold wsub, wrap. replace (a + (itW - b)) with ((a - b) + 1 * itW) by lia.
  rewrite Nat.mod_add by lia. apply Nat.mod_small. lia.
Qed.

Definition div_ (a b : nat) : outcome nat := if decide (b = 0) then Undef DivByZero else Ok (a / b).
Definition mod_ (a b : nat) : outcome nat := if decide (b = 0) then Undef DivByZero else Ok (a mod b).

Lemma div_ok a b : 0 < b -> div_ a b = Ok (a / b).
Proof. intros Hb. unfold div_. by rewrite decide_False by lia. Qed.
Lemma mod_ok a b : 0 < b -> mod_ a b = Ok (a mod b).
Proof. intros Hb. unfold mod_. by rewrite decide_False by lia. Qed.

(** ** Value arithmetic.
    The template parameter T (VALTYPE).  No law is assumed of it: floating-point
    types, with any rounding, are instances. *)
Class Scalar (T : Type) := { s0 : T; sadd : T -> T -> T; smul : T -> T -> T }.
