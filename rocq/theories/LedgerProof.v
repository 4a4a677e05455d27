(** LedgerProof.v: a small program logic for the ledger: what a program owns before and after. *)
From Verif Require Import Base Ledger.
From stdpp Require Import gmap.

Notation cell := (nat * family)%type.
(** the live pieces are exactly [own] and [fr] (the rest of the program's), addresses below next *)
Definition owns (own : list cell) (fr : gmap nat family) (m : ledger) : Prop :=
  l_live m = list_to_map own ∪ fr /\ NoDup own.*1 /\ (forall c, c ∈ own -> fr !! c.1 = None) /\
  forall p f, l_live m !! p = Some f -> p < l_next m.

Definition hoare {R} (own : list cell) (p : led R) (Q : R -> list cell -> Prop) : Prop :=
  forall fr m, owns own fr m -> exists r m' own', p m = Ok (r, m') /\ owns own' fr m' /\ Q r own'.
Definition fails {R} (own : list cell) (p : led R) (u : ub) : Prop := forall fr m, owns own fr m -> p m = Undef u.

Lemma owns_perm own own' fr m : own ≡ₚ own' -> owns own fr m -> owns own' fr m.
Proof.
  intros Hp (H1 & H2 & H3 & H4). split; [|split; [|split]].
  - rewrite H1. f_equal. by apply list_to_map_proper.
  - by rewrite <- Hp.
  - intros c Hc. apply H3. by rewrite Hp.
  - done.
Qed.
Lemma hoare_perm {R} own own' (p : led R) Q : own ≡ₚ own' -> hoare own' p Q -> hoare own p Q.
Proof. intros Hp Hh fr m Hm. apply Hh. by eapply owns_perm. Qed.
Lemma fails_perm {R} own own' (p : led R) u : own ≡ₚ own' -> fails own' p u -> fails own p u.
Proof. intros Hp Hh fr m Hm. apply (Hh fr). by eapply owns_perm. Qed.
Lemma hoare_weaken {R} own (p : led R) (Q Q' : R -> list cell -> Prop) : hoare own p Q -> (forall r o, Q r o -> Q' r o) -> hoare own p Q'.
Proof. intros Hh Hq fr m Hm. destruct (Hh fr m Hm) as (r & m' & o & H1 & H2 & H3). eauto 10. Qed.
Lemma hoare_ret {R} own (r : R) (Q : R -> list cell -> Prop) : Q r own -> hoare own (mret r) Q.
Proof. intros HQ fr m Hm. exists r, m, own. done. Qed.
Lemma hoare_bind {R S} own (p : led R) (k : R -> led S) Q Q' :
  hoare own p Q' -> (forall r o, Q' r o -> hoare o (k r) Q) -> hoare own (p ≫= k) Q.
Proof.
  intros Hp Hk fr m Hm. destruct (Hp fr m Hm) as (r & m' & o & H1 & H2 & H3).
  destruct (Hk r o H3 fr m' H2) as (r' & m'' & o' & H4 & H5 & H6). exists r', m'', o'. split; [|done].
  unfold mbind, led_bind. rewrite H1. exact H4.
Qed.
Lemma fails_bind {R S} own (p : led R) (k : R -> led S) u : fails own p u -> fails own (p ≫= k) u.
Proof. intros Hp fr m Hm. unfold mbind, led_bind. by rewrite (Hp fr m Hm). Qed.
Lemma fails_bind_r {R S} own (p : led R) (k : R -> led S) u Q :
  hoare own p Q -> (forall r o, Q r o -> fails o (k r) u) -> fails own (p ≫= k) u.
Proof.
  intros Hp Hk fr m Hm. destruct (Hp fr m Hm) as (r & m' & o & H1 & H2 & H3). unfold mbind, led_bind. rewrite H1.
  by apply (Hk r o H3 fr).
Qed.

Lemma hoare_alloc own f : hoare own (alloc f) (fun p o => o = (p, f) :: own /\ p ∉ own.*1).
Proof.
  intros fr m (H1 & H2 & H3 & H4).
  assert (Hf : l_live m !! l_next m = None). { destruct (l_live m !! l_next m) eqn:E; [|done]. specialize (H4 _ _ E). lia. }
  rewrite H1 in Hf. apply lookup_union_None in Hf as [Ho Hfr].
  assert (Hni : l_next m ∉ own.*1). { by apply not_elem_of_list_to_map. }
  eexists _, _, _. split; [done|]. split; [|done]. split; [|split; [|split]]; cbn [l_live l_next].
  - rewrite H1. cbn. by rewrite insert_union_l.
  - by constructor.
  - intros c [->|Hc]%elem_of_cons; [done|]. by apply H3.
  - intros p g. destruct (decide (p = l_next m)) as [->|Hne]; [intros _; lia|]. rewrite lookup_insert_ne by done. intros Hl%H4. lia.
Qed.
Lemma hoare_dealloc strict own f g p : (strict = true -> f = g) -> hoare ((p, g) :: own) (dealloc strict f p) (fun _ o => o = own).
Proof.
  intros Hs fr m (H1 & H2 & H3 & H4). cbn in H2. apply NoDup_cons in H2 as [Hni H2].
  assert (Hl : l_live m !! p = Some g). { rewrite H1. apply lookup_union_Some_l. cbn. by rewrite lookup_insert. }
  unfold dealloc. rewrite Hl.
  assert (strict && negb (bool_decide (f = g)) = false) as ->.
  { destruct strict; [|done]. cbn. by rewrite bool_decide_true by auto. }
  eexists tt, _, own. split; [done|]. split; [|done]. split; [|split; [|split]]; cbn [l_live l_next].
  - rewrite H1. cbn. rewrite delete_union, delete_insert by (by apply not_elem_of_list_to_map_1).
    f_equal. apply delete_notin. apply (H3 (p, g)). constructor.
  - done.
  - intros c Hc. apply H3. by constructor.
  - intros q h Hq. apply lookup_delete_Some in Hq as [_ Hq]. exact (H4 _ _ Hq).
Qed.
Lemma fails_dealloc own f g p : f <> g -> fails ((p, g) :: own) (dealloc true f p) BadFree.
Proof.
  intros Hne fr m (H1 & _). unfold dealloc.
  assert (l_live m !! p = Some g) as ->. { rewrite H1. apply lookup_union_Some_l. cbn. by rewrite lookup_insert. }
  by rewrite bool_decide_false.
Qed.
(** a piece that is not live: double free *)
Lemma dealloc_dead strict f p m : l_live m !! p = None -> dealloc strict f p m = Undef BadFree.
Proof. intros Hl. unfold dealloc. by rewrite Hl. Qed.

Lemma hoare_times own n f : hoare own (led_times n (alloc f)) (fun l o => length l = n /\ o ≡ₚ ((fun p => (p, f)) <$> l) ++ own).
Proof.
  revert own. induction n as [|n IH]; intros own; cbn.
  - by apply hoare_ret.
  - eapply hoare_bind; [apply hoare_alloc|]. intros p o [-> Hp]. eapply hoare_bind; [apply IH|]. intros l o (Hl & Ho).
    apply hoare_ret. cbn. split; [lia|]. rewrite Ho. by rewrite Permutation_middle.
Qed.
Lemma hoare_each {A} (f : A -> led unit) (cells : A -> list cell) own l :
  (forall a o, hoare (cells a ++ o) (f a) (fun _ o' => o' ≡ₚ o)) ->
  hoare (flat_map cells l ++ own) (led_each f l) (fun _ o => o ≡ₚ own).
Proof.
  intros Hf. induction l as [|a l IH]; cbn.
  - by apply hoare_ret.
  - rewrite <- app_assoc. eapply hoare_bind; [apply Hf|]. intros [] o Ho. by apply (hoare_perm _ (flat_map cells l ++ own)); [exact Ho|].
Qed.
Lemma hoare_free_each strict f g own l : (strict = true -> f = g) ->
  hoare (((fun p => (p, g)) <$> l) ++ own) (led_each (dealloc strict f) l) (fun _ o => o ≡ₚ own).
Proof.
  intros Hs. induction l as [|a l IH]; cbn.
  - by apply hoare_ret.
  - eapply hoare_bind; [by apply hoare_dealloc|]. by intros [] o ->.
Qed.
Lemma hoare_map {A B} (f : A -> led B) (cells : B -> list cell) (P : A -> B -> Prop) own l :
  (forall a o, hoare o (f a) (fun b o' => P a b /\ o' ≡ₚ cells b ++ o)) ->
  hoare own (led_map f l) (fun r o => Forall2 P l r /\ o ≡ₚ flat_map cells r ++ own).
Proof.
  intros Hf. revert own. induction l as [|a l IH]; intros own; cbn.
  - apply hoare_ret. by split.
  - eapply hoare_bind; [apply Hf|]. intros b o [HP Ho]. eapply hoare_bind; [apply IH|]. intros r o' [Hr Ho'].
    apply hoare_ret. split; [by constructor|]. cbn. rewrite Ho', Ho, !app_assoc. f_equiv. by rewrite (Permutation_app_comm (cells b)).
Qed.
