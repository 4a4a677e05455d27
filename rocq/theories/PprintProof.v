(** PprintProof.v: what the loops of src/tools/pprint.c print. *)
From Verif Require Export Pprint IoProof BlockIoProof TextProof Properties_Io.

Lemma for_n_const_app {S : Type} (body : S -> outcome S) n m lo st :
  for_n (n + m) lo (fun _ => body) st = (st' ← for_n n lo (fun _ => body) st; for_n m lo (fun _ => body) st').
Proof.
  assert (Hlo : forall n lo lo' st, for_n n lo (fun _ => body) st = for_n n lo' (fun _ => body) st).
  { clear. induction n as [|n IH]; intros lo lo' st; cbn [for_n]; [done|].
    destruct (body st); cbn [mbind outcome_bind]; [apply IH|done..]. }
  revert lo st. induction n as [|n IH]; intros lo st; cbn [for_n Nat.add mbind outcome_bind]; [done|].
  destruct (body st) as [s'| | |]; cbn [mbind outcome_bind]; [|done..].
  rewrite IH. destruct (for_n n (Datatypes.S lo) (fun _ => body) s'); cbn [mbind outcome_bind]; [|done..]. apply Hlo.
Qed.

Section items.
  Context {A : Type} (R : repr A) (print : A -> bytes).
  Implicit Types (b : option A) (f out : bytes).
  Notation line v := (print v ++ [10]).

  (** [n] rounds of the loop *)
  Lemma show_items_app n m b f out : show_items R print (n + m) b f out =
    ('(b, f, out) ← show_items R print n b f out; show_items R print m b f out).
  Proof.
    unfold show_items, for_range. rewrite !Nat.sub_0_r.
    rewrite (for_n_const_app (fun '(b, f, out) => show_next R (fun v => line v) b f out)).
    destruct (for_n n 0 _ _) as [[[b' f'] out']| | |]; done.
  Qed.
  Lemma show_items_0 b f out : show_items R print 0 b f out = Ok (b, f, out).
  Proof. done. Qed.
  Lemma show_items_S n b f out : show_items R print (Datatypes.S n) b f out =
    ('(b, f, out) ← show_next R (fun v => line v) b f out; show_items R print n b f out).
  Proof.
    rewrite (show_items_app 1 n).
    assert (show_items R print 1 b f out = show_next R (fun v => line v) b f out) as ->; [|done].
    unfold show_items, for_range. cbn [Nat.sub for_n]. destruct (show_next R (fun v => line v) b f out) as [[[b' f'] out']| | |]; done.
  Qed.
  Lemma show_next_enc pr v rest b out : faithful (fun w => w = v) R -> show_next R pr b (enc R v ++ rest) out = Ok (Some v, rest, out ++ pr v).
  Proof using Type. intros Hf. unfold show_next. by rewrite (fread1_enc R). Qed.
  (** enough items: all of them, in order *)
  Lemma show_items_all (l : list A) rest b out : faithful (fun w => w ∈ l) R ->
    show_items R print (length l) b (fwrite R l ++ rest) out =
      Ok (match last l with Some v => Some v | None => b end, rest, out ++ concat ((fun v => line v) <$> l)).
  Proof.
    revert b out. induction l as [|v l IH]; intros b out Hf.
    - cbn. by rewrite app_nil_r.
    - cbn [length]. rewrite show_items_S, (fwrite_cons R), <- app_assoc.
      rewrite show_next_enc by (eapply faithful_weak; [|exact Hf]; intros ? ->; set_solver). cbn [mbind outcome_bind].
      rewrite IH by (eapply faithful_weak; [|exact Hf]; set_solver).
      cbn [fmap list_fmap concat]. rewrite <- app_assoc. f_equal. f_equal. f_equal.
      destruct l as [|w l]; [done|]. change (last (v :: w :: l)) with (last (w :: l)). destruct (last (w :: l)) eqn:E; [done|].
      by apply last_None in E.
  Qed.
  Lemma show_items_n n (l : list A) rest b out : length l = n -> faithful (fun w => w ∈ l) R ->
    show_items R print n b (fwrite R l ++ rest) out =
      Ok (match last l with Some v => Some v | None => b end, rest, out ++ concat ((fun v => line v) <$> l)).
  Proof. intros <-. apply show_items_all. Qed.
  (** nothing left in the file: the last item again and again *)
  Lemma show_next_end pr v out : 0 < sz R -> show_next R pr (Some v) [] out = Ok (Some v, [], out ++ pr v).
  Proof using Type. clear print. intros Hs. unfold show_next, fread1. rewrite decide_False by (cbn; lia). done. Qed.
  Lemma show_items_end n v out : 0 < sz R -> show_items R print n (Some v) [] out = Ok (Some v, [], out ++ concat (replicate n (line v))).
  Proof.
    intros Hs. revert out. induction n as [|n IH]; intros out; [cbn; by rewrite app_nil_r|].
    rewrite show_items_S, show_next_end by done. cbn [mbind outcome_bind]. rewrite IH. cbn [replicate concat]. by rewrite <- !app_assoc.
  Qed.
  Lemma show_next_bad pr b f out : length f < sz R -> f <> [] \/ b = None -> show_next R pr b f out = Undef Uninit.
  Proof using Type. clear print. intros Hs Hf. unfold show_next. rewrite fread1_short by done. destruct f; [|done]. by destruct Hf as [? | ->]. Qed.
  (** part of an item, or no item at all *)
  Lemma show_items_bad n b f out : 0 < n -> length f < sz R -> f <> [] \/ b = None -> show_items R print n b f out = Undef Uninit.
  Proof. intros Hn Hs Hf. destruct n as [|n]; [lia|]. rewrite show_items_S, show_next_bad by done. done. Qed.
  (** what the loop can end with *)
  Lemma show_next_cases pr b f out : (exists v, show_next R pr b f out = Ok (Some v, drop (sz R) f, out ++ pr v)) \/ show_next R pr b f out = Undef Uninit.
  Proof using Type.
    clear print.
    destruct (decide (sz R <= length f)).
    - unfold show_next. rewrite fread1_long by done. left. eexists. done.
    - unfold show_next. rewrite fread1_short by lia. destruct f as [|c f]; [|by right]. destruct b as [v|]; [|by right]. left. eexists. by rewrite drop_nil.
  Qed.
  Lemma show_items_cases n b f out : (exists b' out', show_items R print n b f out = Ok (b', drop (n * sz R) f, out')) \/ show_items R print n b f out = Undef Uninit.
  Proof.
    revert b f out. induction n as [|n IH]; intros b f out; [left; cbn; eauto|].
    rewrite show_items_S. destruct (show_next_cases (fun v => line v) b f out) as [[v ->]| ->]; [|by right]. cbn [mbind outcome_bind].
    destruct (IH (Some v) (drop (sz R) f) (out ++ line v)) as [(b' & out' & ->)| ->]; [|by right]. left. do 2 eexists. rewrite drop_drop. done.
  Qed.
  (** a part of an item is met on the way *)
  Lemma show_items_partial n b f out : 0 < sz R -> length f < n * sz R -> length f mod sz R <> 0 -> show_items R print n b f out = Undef Uninit.
  Proof.
    intros Hs. revert b f out. induction n as [|n IH]; intros b f out Hl Hm; [lia|].
    destruct (decide (length f < sz R)).
    - apply show_items_bad; [lia|done|]. left. intros ->. cbn in Hm. rewrite Nat.mod_0_l in Hm by lia. done.
    - rewrite show_items_S. destruct (show_next_cases (fun v => line v) b f out) as [[v ->]| ->]; [|done]. cbn [mbind outcome_bind].
      apply IH; rewrite drop_length; [lia|]. intros E. apply Hm. replace (length f) with (length f - sz R + 1 * sz R) by lia. by rewrite Nat.mod_add by lia.
  Qed.
End items.

Section records.
  Context {T : Type} `{Widths} (RT : repr T) (k : nat) (print_e : T -> bytes).
  Implicit Types (E : list (elem T)) (f out : bytes).
  Definition show_records (nnz : nat) (n : option nat) (v : option T) f out : outcome (option nat * option T * bytes * bytes) :=
    for_range 0 nnz (fun _ '(n, v, f, out) => show_record RT k print_e n v f out) (n, v, f, out).
  (** the line of one record *)
  Definition record_line (a b c : nat) (v : T) : bytes := print_12 a ++ [9] ++ print_12 b ++ [9] ++ print_12 c ++ [9] ++ print_e v ++ [10].

  Lemma show_records_app n m i v f out : show_records (n + m) i v f out =
    ('(i, v, f, out) ← show_records n i v f out; show_records m i v f out).
  Proof.
    unfold show_records, for_range. rewrite !Nat.sub_0_r.
    rewrite (for_n_const_app (fun '(i, v, f, out) => show_record RT k print_e i v f out)).
    destruct (for_n n 0 _ _) as [[[[b' v'] f'] out']| | |]; done.
  Qed.
  Lemma show_records_S n i v f out : show_records (Datatypes.S n) i v f out =
    ('(i, v, f, out) ← show_record RT k print_e i v f out; show_records n i v f out).
  Proof.
    rewrite (show_records_app 1 n).
    assert (show_records 1 i v f out = show_record RT k print_e i v f out) as ->; [|done].
    unfold show_records, for_range. cbn [Nat.sub for_n]. destruct (show_record RT k print_e i v f out) as [[[[b' v'] f'] out']| | |]; done.
  Qed.
  Hypothesis (Hk : index_bytes k) (HR : storable RT).
  Lemma show_record_enc e rest i v out : record_fits e ->
    show_record RT k print_e i v (enc_record RT k e ++ rest) out =
      Ok (Some (col e), Some (val e), rest, out ++ record_line (blk e) (row e) (col e) (val e)).
  Proof using Hk HR.
    intros (H1 & H2 & H3). unfold show_record, enc_record, record_line. rewrite <- !app_assoc.
    rewrite show_next_enc by (apply (faithful_RI k Hk); by intros ? ->). cbn [mbind outcome_bind].
    rewrite show_next_enc by (apply (faithful_RI k Hk); by intros ? ->). cbn [mbind outcome_bind].
    rewrite show_next_enc by (apply (faithful_RI k Hk); by intros ? ->). cbn [mbind outcome_bind].
    rewrite show_next_enc by (apply (faithful_RT RT HR)). cbn [mbind outcome_bind].
    by rewrite <- !app_assoc.
  Qed.
  Lemma show_records_all E rest i v out : Forall record_fits E ->
    show_records (length E) i v (concat (enc_record RT k <$> E) ++ rest) out =
      Ok (match last E with Some e => Some (col e) | None => i end, match last E with Some e => Some (val e) | None => v end, rest,
          out ++ concat ((fun e => record_line (blk e) (row e) (col e) (val e)) <$> E)).
  Proof using Hk HR.
    intros HE. revert i v out. induction HE as [|e E He HE IH]; intros i v out; [cbn; by rewrite app_nil_r|].
    cbn [length fmap list_fmap concat]. rewrite <- app_assoc, show_records_S, show_record_enc by done. cbn [mbind outcome_bind].
    rewrite IH. rewrite <- app_assoc.
    destruct E as [|w l]; [done|]. change (last (e :: w :: l)) with (last (w :: l)). destruct (last (w :: l)) eqn:E'; [done|].
    by apply last_None in E'.
  Qed.
  Lemma show_records_end n i v out :
    show_records n (Some i) (Some v) [] out = Ok (Some i, Some v, [], out ++ concat (replicate n (record_line i i i v))).
  Proof using Hk HR.
    revert out. induction n as [|n IH]; intros out; [cbn; by rewrite app_nil_r|].
    rewrite show_records_S. unfold show_record at 1.
    do 3 (rewrite show_next_end by (exact (proj1 Hk)); cbn [mbind outcome_bind]). rewrite show_next_end by (exact (proj1 HR)). cbn [mbind outcome_bind].
    rewrite IH. cbn [replicate concat]. unfold record_line. by rewrite <- !app_assoc.
  Qed.
  (** the first record is not all there *)
  Lemma show_record_bad i f out : length f < record_size RT k -> show_record RT k print_e i None f out = Undef Uninit.
  Proof using Hk HR.
    intros Hl. unfold record_size in Hl. unfold show_record.
    destruct (show_next_cases (index_repr k) (fun n => print_12 n ++ [9]) i f out) as [[v1 ->]| ->]; [|done]. cbn [mbind outcome_bind].
    match goal with |- context [show_next ?R ?p (Some v1) ?f ?o] => destruct (show_next_cases R p (Some v1) f o) as [[v2 ->]| ->] end; [|done]. cbn [mbind outcome_bind].
    match goal with |- context [show_next ?R ?p (Some v2) ?f ?o] => destruct (show_next_cases R p (Some v2) f o) as [[v3 ->]| ->] end; [|done]. cbn [mbind outcome_bind].
    rewrite show_next_bad; [done| |by right]. rewrite !drop_length. cbn [sz index_repr]. destruct HR. lia.
  Qed.
  (** the loop ends, or meets a buffer that was never filled *)
  Lemma show_records_cases n i v f out : (exists r, show_records n i v f out = Ok r) \/ show_records n i v f out = Undef Uninit.
  Proof.
    revert i v f out. induction n as [|n IH]; intros i v f out; [left; eexists; done|]. rewrite show_records_S. unfold show_record.
    repeat (match goal with |- context [show_next ?R ?p ?i ?f ?o] => destruct (show_next_cases R p i f o) as [[? ->]| ->] end; [|by right]; cbn [mbind outcome_bind]).
    apply IH.
  Qed.
End records.
