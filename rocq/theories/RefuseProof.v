(** RefuseProof.v: what the tools leave alone, whatever they are given. *)
From Verif Require Export Tools.
From Verif Require Import ToolsProof Properties_Tools4.
From Coq Require Import ZifyNat ZifyBool ZifyN.

Lemma okb {A B} (m : outcome A) (f : A -> outcome B) (r : B) : (m ≫= f) = Ok r -> exists a, m = Ok a /\ f a = Ok r.
Proof. destruct m; [|done..]. by exists a. Qed.
Ltac okstep H := let a := fresh "a" in let E := fresh "E" in apply okb in H as (a & E & H); cbv beta in H; repeat match type of H with context [let '(_, _) := ?p in _] => destruct p end.
Ltac okall H := repeat (lazymatch type of H with (_ ≫= _) = Ok _ => okstep H end).

Lemma strlen_inv (buf : arr nat) n : strlen buf = Ok n -> exists s rest, buf = full s ++ Some 0 :: rest /\ n = length s /\ no_zero s.
Proof.
  revert n. induction buf as [|[c|] buf IH]; intros n; cbn [strlen]; [done| |done]. destruct (Nat.eqb_spec c 0) as [->|Hc].
  - intros [= <-]. exists [], buf. repeat split. constructor.
  - intros Hs. okall Hs. injection Hs as <-. destruct (IH _ E) as (s & rest & -> & -> & Hz). exists (c :: s), rest. repeat split. by constructor.
Qed.
Lemma strcat_inv (buf buf' : arr nat) suf : strcat buf suf = Ok buf' -> exists s rest, no_zero s /\ buf' = full (s ++ suf) ++ Some 0 :: rest.
Proof.
  intros Hc. pose proof Hc as Hc'. unfold strcat in Hc'. apply okb in Hc' as (n & En & Hc'). destruct (strlen_inv _ _ En) as (s & rest & -> & -> & Hz). clear En.
  destruct (decide (length s + length suf < length (full s ++ Some 0 :: rest))) as [Hl|Hl].
  - destruct (strcat_string s suf rest Hz Hl) as (rest' & E & _). rewrite E in Hc. injection Hc as <-. by exists s, rest'.
  - exfalso. apply okb in Hc' as (b & Eb & Hc'). unfold aset in Hc'.
    assert (G : length b = length (full s ++ Some 0 :: rest)); [|rewrite decide_False in Hc' by lia; done].
    clear Hc'. revert b Eb. generalize (length suf) as m. intros m.
    assert (Q : forall k i (b0 b1 : arr nat), for_n k i (fun i b => aset b (length s + i) (nth i suf 0)) b0 = Ok b1 -> length b1 = length b0).
    { induction k as [|k IH]; intros i b0 b1; cbn; [by intros [= ->]|]. intros E. apply okb in E as (b2 & E2 & E). unfold aset in E2. destruct (decide _); [|done].
      injection E2 as <-. apply IH in E. by rewrite insert_length in E. }
    intros b Eb. unfold for_range in Eb. eapply Q, Eb.
Qed.
(** whatever the buffer held before and however long the first part is, a name that is made
    at all ends in the suffix *)
Lemma output_name_ends (buf buf' : arr nat) s n suf name : no_zero suf -> output_name buf s n suf = Ok (buf', name) -> exists p, name = p ++ suf.
Proof.
  intros Hz Ho. unfold output_name in Ho. apply okb in Ho as (b & _ & Ho). apply okb in Ho as (b2 & E2 & Ho). apply okb in Ho as (nm & E3 & Ho). injection Ho as <- <-.
  destruct (strcat_inv _ _ _ E2) as (p & rest & Hp & ->). rewrite c_name_string in E3 by (by apply Forall_app). injection E3 as <-. by exists p.
Qed.

(** F' holds what F held, except perhaps under names of which P holds *)
Definition same_but (P : bytes -> Prop) (F F' : fs) : Prop := forall n, ~ P n -> F' !! n = F !! n.
Definition ends_in (suf n : bytes) : Prop := exists p, n = p ++ suf.
Lemma same_but_refl P F : same_but P F F.
Proof. by intros n _. Qed.
Lemma same_but_insert P F F' n f : same_but P F F' -> P n -> same_but P F (<[n := f]> F').
Proof. intros Hs Hn m Hm. rewrite lookup_insert_ne by (intros ->; done). auto. Qed.
Lemma same_but_delete P F F' n : same_but P F F' -> P n -> same_but P F (delete n F').
Proof. intros Hs Hn m Hm. rewrite lookup_delete_ne by (intros ->; done). auto. Qed.
Lemma same_but_trans P F F' F'' : same_but P F F' -> same_but P F' F'' -> same_but P F F''.
Proof. intros H1 H2 n Hn. rewrite H2 by done. auto. Qed.

Section one.
  Context `{Widths} (k : nat).
  Lemma one2zero_frame names : forall F buf c F', one2zero_files k names F buf = Ok (c, F') -> same_but (ends_in (str ".zero")) F F'.
  Proof.
    induction names as [|name names IH]; intros F buf c F'; cbn [one2zero_files]; [intros [= <- <-]; apply same_but_refl|].
    intros Hr. apply okb in Hr as (r & Er & Hr). unfold one2zero_file in Er. apply okb in Er as ([buf' out] & Eo & Er). cbv beta iota in Er.
    apply output_name_ends in Eo; [|by apply no_zero_str].
    destruct (F !! name) as [f|]; [|by injection Er as <-; injection Hr as <- <-].
    okall Er. destruct a0 as [a0|c0].
    - okall Er. injection Er as <-. cbv beta iota in Hr. apply IH in Hr. eapply same_but_trans; [|exact Hr]. apply same_but_insert; [apply same_but_refl|done].
    - injection Er as <-. by injection Hr as <- <-.
  Qed.
  Lemma d2f_frame {D S} (RD : repr D) (RS : repr S) (conv : D -> S) names : forall F buf c F', d2f_files RD RS conv names F buf = Ok (c, F') -> same_but (ends_in (str ".float")) F F'.
  Proof.
    induction names as [|name names IH]; intros F buf c F'; cbn [d2f_files]; [intros [= <- <-]; apply same_but_refl|].
    intros Hr. apply okb in Hr as (r & Er & Hr). unfold d2f_file in Er. apply okb in Er as ([buf' out] & Eo & Er). cbv beta iota zeta in Er.
    apply output_name_ends in Eo; [|by apply no_zero_str].
    destruct (F !! name) as [f|].
    - okall Er. injection Er as <-. cbv beta iota in Hr. apply IH in Hr. eapply same_but_trans; [|exact Hr].
      apply same_but_insert; [apply same_but_insert; [apply same_but_refl|done]|done].
    - injection Er as <-. injection Hr as <- <-. apply same_but_insert; [apply same_but_refl|done].
  Qed.
  Lemma permute_file_frame name perm F buf r : permute_file k name perm F buf = Ok r ->
    match r with inl (F', _) => same_but (ends_in (str ".permuted")) F F' | inr (c, F') => c = 1%Z /\ F' = F end.
  Proof.
    unfold permute_file. intros Hr. okstep Hr. destruct (_ <? 0)%Z; [by injection Hr as <-|]. apply okb in Hr as (l1 & _ & Hr). apply okb in Hr as ([? l'] & _ & Hr).
    apply okb in Hr as ([b out] & Eo & Hr). apply okb in Hr as (g & _ & Hr). injection Hr as <-. apply output_name_ends in Eo; [|by apply no_zero_str].
    apply same_but_insert; [apply same_but_refl|done].
  Qed.
  Lemma permute_frame invperm forgiving rows cols perm F c F' : permute_tool k invperm forgiving rows cols perm F = Ok (c, F') -> same_but (ends_in (str ".permuted")) F F'.
  Proof.
    unfold permute_tool. intros Hr. okstep Hr. destruct (_ <? 0)%Z; [injection Hr as <- <-; apply same_but_refl|].
    apply okb in Hr as (l1 & _ & Hr). apply okb in Hr as (l' & _ & Hr). apply okb in Hr as (r & Er & Hr). apply permute_file_frame in Er.
    destruct r as [[F1 b1]|[c1 F1]]; [|destruct Er as [-> ->]; injection Hr as <- <-; apply same_but_refl].
    apply okb in Hr as (r & Er2 & Hr). apply permute_file_frame in Er2. destruct r as [[F2 b2]|[c2 F2]].
    - destruct (invperm && negb forgiving); [done|]. injection Hr as <- <-. by eapply same_but_trans.
    - destruct Er2 as [-> ->]. by injection Hr as <- <-.
  Qed.
End one.

Section three.
  Context {T : Type} `{Widths} (RT : repr T) (k : nat) (scan_g : bytes -> option T * bytes) (print_f : T -> bytes)
    (reader : option bytes -> option bytes -> option bytes -> outcome (Z * option (rawcoo T))).
  Lemma convert_blocked_frame rows cols vals sizes out F c F' : convert_blocked RT k reader rows cols vals sizes out F = Ok (c, F') ->
    (c = 0%Z /\ exists f, F' = <[out := f]> F) \/ (c = 1%Z /\ F' = F).
  Proof.
    unfold convert_blocked. intros Hr. okstep Hr. destruct (_ <? 0)%Z; [injection Hr as <- <-; by right|].
    cbv zeta in Hr. apply okb in Hr as (? & _ & Hr). apply okb in Hr as (? & _ & Hr). okstep Hr. destruct (_ <? 0)%Z; [injection Hr as <- <-; by right|].
    apply okb in Hr as (? & _ & Hr). apply okb in Hr as (? & _ & Hr). apply okb in Hr as (? & _ & Hr). injection Hr as <- <-. left. split; [done|]. by eexists.
  Qed.
  Lemma convert_frame rows cols vals out mode F c F' : convert RT k print_f reader rows cols vals out mode F = Ok (c, F') ->
    (c = 0%Z /\ same_but (fun n => ends_in (str ".mtx") n \/ ends_in (str ".bin") n) F F') \/ (c = 1%Z /\ F' = F).
  Proof.
    unfold convert. cbv zeta. destruct (negb _); [intros [= <- <-]; by right|]. intros Hr. okstep Hr. destruct (_ <? 0)%Z; [injection Hr as <- <-; by right|].
    apply okb in Hr as (? & _ & Hr). apply okb in Hr as (B & _ & Hr). apply okb in Hr as (E2 & _ & Hr). cbv zeta in Hr. apply okb in Hr as ([F1 b1] & E1 & Hr). cbv beta iota in Hr. left.
    assert (H1 : same_but (fun n => ends_in (str ".mtx") n \/ ends_in (str ".bin") n) F F1).
    { destruct (_ || _) in E1.
      - apply okb in E1 as ([b2 n2] & Eo & E1). apply okb in E1 as (f & _ & E1). injection E1 as <- <-. apply output_name_ends in Eo; [|by apply no_zero_str].
        apply same_but_insert; [apply same_but_refl|by left].
      - injection E1 as <- <-. apply same_but_refl. }
    destruct (_ || _) in Hr.
    - apply okb in Hr as ([b2 n2] & Eo & Hr). injection Hr as <- <-. apply output_name_ends in Eo; [|by apply no_zero_str]. split; [done|]. apply same_but_insert; [done|by right].
    - by injection Hr as <- <-.
  Qed.
  Lemma sort_frame fuel args F c F' : sort_tool RT k scan_g print_f reader fuel args F = Ok (c, F') ->
    (c = 0%Z /\ same_but (ends_in (str ".sorted")) F F') \/ (c = 1%Z /\ F' = F).
  Proof.
    unfold sort_tool. destruct args as [|m [|c1 [|v bs]]]; [intros [= <- <-]; by right| |done|].
    - intros Hr. okstep Hr. destruct (_ <? 0)%Z; [injection Hr as <- <-; by right|]. apply okb in Hr as (? & _ & Hr). apply okb in Hr as (? & _ & Hr). apply okb in Hr as (? & _ & Hr).
      apply okb in Hr as ([? n] & Eo & Hr). apply okb in Hr as (f & _ & Hr). injection Hr as <- <-. apply output_name_ends in Eo; [|by apply no_zero_str].
      left. split; [done|]. apply same_but_insert; [apply same_but_refl|done].
    - destruct (2 <=? length bs); [intros [= <- <-]; by right|]. intros Hr. apply okb in Hr as (sizes & _ & Hr). okstep Hr. destruct (_ || _); [injection Hr as <- <-; by right|].
      apply okb in Hr as (? & _ & Hr). apply okb in Hr as (B & _ & Hr). apply okb in Hr as (E1 & _ & Hr). destruct (write_bin_COO3 _ _ _) as [[fr fc] fv].
      apply okb in Hr as ([? n1] & Eo1 & Hr). apply okb in Hr as ([? n2] & Eo2 & Hr). apply okb in Hr as ([? n3] & Eo3 & Hr). injection Hr as <- <-.
      apply output_name_ends in Eo1; [|by apply no_zero_str]. apply output_name_ends in Eo2; [|by apply no_zero_str]. apply output_name_ends in Eo3; [|by apply no_zero_str].
      left. split; [done|]. repeat apply same_but_insert; (apply same_but_refl || done).
  Qed.
  Lemma expanded_frame rows cols vals sizes out F c F' : expanded RT k reader rows cols vals sizes out F = Ok (c, F') ->
    (c = 0%Z /\ same_but (fun n => exists m, ends_in (str ".exp" ++ print_dec m) n) F F') \/ (c = 1%Z /\ F' = F).
  Proof.
    unfold expanded. intros Hr. okstep Hr. destruct (_ <? 0)%Z; [injection Hr as <- <-; by right|]. apply okb in Hr as (? & _ & Hr). apply okb in Hr as (? & _ & Hr). cbv zeta in Hr.
    okstep Hr. apply okb in Hr as (? & _ & Hr). apply okb in Hr as (? & _ & Hr). apply okb in Hr as (? & _ & Hr). apply okb in Hr as (? & _ & Hr). okstep Hr.
    apply okb in Hr as ([? nm] & Eo & Hr). injection Hr as <- <-. apply output_name_ends in Eo; [|apply Forall_app; split; [by apply no_zero_str|apply print_dec_no_zero]].
    left. split; [done|]. apply same_but_insert; [apply same_but_refl|by eexists].
  Qed.
  Definition made_by_prepare (n : bytes) : Prop :=
    n = TMPROWS \/ n = TMPCOLS \/ ends_in (str ".row") n \/ ends_in (str ".block") n \/ ends_in (str ".col") n \/ exists m, ends_in (str ".col.exp" ++ print_dec m) n.
  Lemma prepare_permute_frame name tmp perm F r : prepare_permute k name tmp perm F = Ok r ->
    match r with inl F' => exists g, F' = <[tmp := g]> F | inr (c, F') => c = 1%Z /\ F' = F end.
  Proof.
    unfold prepare_permute. intros Hr. okstep Hr. destruct (_ <? 0)%Z; [by injection Hr as <-|]. apply okb in Hr as (? & _ & Hr). okstep Hr. okstep Hr. injection Hr as <-. by eexists.
  Qed.
  Lemma prepare_frame rows cols vals perm sizes out F c F' : prepare RT k reader rows cols vals perm sizes out F = Ok (c, F') ->
    same_but made_by_prepare F F' /\ (c = 1%Z -> same_but (fun n => n = TMPROWS \/ n = TMPCOLS) F F').
  Proof.
    clear scan_g print_f. unfold prepare. intros Hr. okstep Hr. destruct (_ <? 0)%Z; [injection Hr as <- <-; by split; intros; apply same_but_refl|]. apply okb in Hr as (? & _ & Hr).
    apply okb in Hr as (r & Er & Hr). apply prepare_permute_frame in Er. destruct r as [F1|[c1 F1]]; [|destruct Er as [-> ->]; injection Hr as <- <-; by split; intros; apply same_but_refl].
    destruct Er as [g1 ->]. apply okb in Hr as (r & Er & Hr). apply prepare_permute_frame in Er.
    assert (Ht : forall n, n = TMPROWS \/ n = TMPCOLS -> made_by_prepare n) by (unfold made_by_prepare; tauto).
    destruct r as [F2|[c1 F1]].
    2:{ destruct Er as [-> ->]. injection Hr as <- <-. split; intros; (apply same_but_insert; [apply same_but_refl|]); [apply Ht|]; by left. }
    destruct Er as [g2 ->].
    assert (H2 : same_but (fun n => n = TMPROWS \/ n = TMPCOLS) F (<[TMPCOLS:=g2]> (<[TMPROWS:=g1]> F))) by (repeat apply same_but_insert; (apply same_but_refl || auto)).
    revert Hr. generalize dependent (<[TMPCOLS:=g2]> (<[TMPROWS:=g1]> F)). intros F3 H3 Hr. assert (H4 : same_but made_by_prepare F F3) by (intros q Hq; apply H3; auto).
    okstep Hr. destruct (_ <? 0)%Z; [by injection Hr as <- <-|]. apply okb in Hr as (? & _ & Hr). apply okb in Hr as (? & _ & Hr). okstep Hr.
    destruct (_ <? 0)%Z; [by injection Hr as <- <-|]. apply okb in Hr as (? & _ & Hr). apply okb in Hr as (B & _ & Hr).
    unfold prepare_write in Hr. cbv zeta in Hr. apply okb in Hr as (? & _ & Hr). apply okb in Hr as (? & _ & Hr). apply okb in Hr as ([? nm1] & Eo1 & Hr). apply okb in Hr as (? & _ & Hr). apply okb in Hr as (? & _ & Hr).
    apply okb in Hr as ([? nm2] & Eo2 & Hr). apply okb in Hr as (? & _ & Hr). apply okb in Hr as ([? nm3] & Eo3 & Hr). apply okb in Hr as ([? ?] & _ & Hr). apply okb in Hr as ([? nm4] & Eo4 & Hr). injection Hr as <- <-.
    apply output_name_ends in Eo1; [|by apply no_zero_str]. apply output_name_ends in Eo2; [|by apply no_zero_str]. apply output_name_ends in Eo3; [|by apply no_zero_str].
    apply output_name_ends in Eo4; [|apply Forall_app; split; [by apply no_zero_str|apply print_dec_no_zero]].
    split; [|done]. apply same_but_delete; [|by left]. apply same_but_delete; [|right; by left].
    repeat apply same_but_insert; try done; unfold made_by_prepare; eauto 8.
  Qed.
End three.
