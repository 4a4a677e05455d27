(** ParSeq.v: sequencing of programs that have one behaviour on every schedule. *)
From Verif Require Export Performs.

Section ParSeq.
  Context {V : Type}.
  Notation heap := (gmap loc (option V)).
  Implicit Types h : heap.

  Definition is_ret {A} (p : prog V A) : Prop := exists a, p = Ret a.
  Lemma is_ret_dec {A} (p : prog V A) : is_ret p \/ ~ is_ret p.
  Proof. destruct p; try (right; intros [a' E]; discriminate). left. by eexists. Qed.

  Lemma pbind_step {A B} (p : prog V A) (f : A -> prog V B) h c : ~ is_ret p -> step B (pbind p f, h) c ->
    exists p' h', c = (pbind p' f, h') /\ step A (p, h) (p', h').
  Proof.
    intros Hn Hs. destruct p as [a|e|l k|l v k|b n i k|b n k|p q k]; cbn [pbind] in Hs.
    - by destruct Hn; eexists.
    - inversion Hs.
    - inversion Hs; subst. do 2 eexists. split; [reflexivity|]. by constructor.
    - inversion Hs; subst. do 2 eexists. split; [reflexivity|]. by econstructor.
    - inversion Hs; subst. do 2 eexists. split; [reflexivity|]. by econstructor.
    - inversion Hs; subst. do 2 eexists. split; [reflexivity|]. by econstructor.
    - inversion Hs; subst.
      + exists (Fork p' q k), h'. split; [reflexivity|]. by constructor.
      + exists (Fork p q' k), h'. split; [reflexivity|]. by constructor.
      + exists k, h. split; [reflexivity|]. by constructor.
  Qed.
  Lemma step_pbind {A B} (p : prog V A) (f : A -> prog V B) h p' h' : step A (p, h) (p', h') -> step B (pbind p f, h) (pbind p' f, h').
  Proof.
    intros Hs. destruct p as [a|e|l k|l v k|b n i k|b n k|p q k]; inversion Hs; subst; cbn [pbind].
    - by apply (S_read _ l (fun v => pbind (k v) f)).
    - by eapply S_write.
    - by apply S_alloc.
    - by apply S_free.
    - by apply S_left.
    - by apply S_right.
    - by apply S_join.
  Qed.
  Lemma faults_pbind {A B} (p : prog V A) (f : A -> prog V B) h : ~ is_ret p -> faults (pbind p f) h -> faults p h.
  Proof. intros Hn. destruct p; cbn [pbind faults]; auto. intros _. destruct Hn. by eexists. Qed.
  Lemma race_pbind {A B} (p : prog V A) (f : A -> prog V B) : ~ is_ret p -> race (pbind p f) -> race p.
  Proof. intros Hn. destruct p; cbn [pbind race]; auto. intros _. destruct Hn. by eexists. Qed.

  Lemma all_schedules_step {A} (p : prog V A) h a hf p' h' : all_schedules p h a hf -> step A (p, h) (p', h') -> all_schedules p' h' a hf.
  Proof.
    intros [Hacc Hall] Hs. split; [apply step_acc|]. intros p2 h2 Hr. apply Hall. eapply rtc_l; [exact Hs|exact Hr].
  Qed.
  Lemma all_schedules_ret_inv {A} (x : A) h a hf : all_schedules (Ret x) h a hf -> x = a /\ h = hf.
  Proof.
    intros [_ Hall]. destruct (Hall (Ret x) h) as (_ & _ & [[c Hs]|[E ->]]); [apply rtc_refl|inversion Hs|]. by injection E as ->.
  Qed.
  Lemma all_schedules_ret {A} (a : A) h : all_schedules (Ret a : prog V A) h a h.
  Proof.
    split; [apply step_acc|]. intros p' h' Hr. inversion Hr as [c|c1 c2 c3 Hs]; subst; [|inversion Hs].
    split; [by intros []|]. split; [by intros []|]. by right.
  Qed.

  Lemma all_schedules_bind {A B} (p : prog V A) (f : A -> prog V B) h a h1 c hf :
    all_schedules p h a h1 -> all_schedules (f a) h1 c hf -> all_schedules (p ≫= f) h c hf.
  Proof.
    intros Hp Hf. split; [apply step_acc|].
    change (p ≫= f) with (pbind p f).
    assert (Hind : forall q hq, rtc (step B) (pbind p f, h) (q, hq) ->
      (exists p', q = pbind p' f /\ ~ is_ret p' /\ all_schedules p' hq a h1) \/ all_schedules q hq c hf).
    { intros q hq Hr. change hq with (q, hq).2. change q with (q, hq).1 at 1 3.
      remember (pbind p f, h) as c0 eqn:E0. revert p h E0 Hp. generalize (q, hq) Hr. clear q hq Hr. intros c1 Hr.
      induction Hr as [c0|c0 c2 c3 Hs Hr IH]; intros p h E0 Hp; subst.
      - cbn [fst snd]. destruct (is_ret_dec p) as [[x ->]|Hn].
        + apply all_schedules_ret_inv in Hp as [-> ->]. by right.
        + left. by exists p.
      - destruct (is_ret_dec p) as [[x ->]|Hn].
        + apply all_schedules_ret_inv in Hp as [-> ->]. right.
          destruct Hf as [_ Hf]. split; [apply step_acc|]. intros q' h' Hr'. apply Hf.
          eapply rtc_l; [exact Hs|]. eapply rtc_transitive; [exact Hr|]. by destruct c3.
        + destruct (pbind_step p f h c2 Hn Hs) as (p' & h' & -> & Hs').
          apply (IH p' h' eq_refl). by eapply all_schedules_step. }
    intros q hq Hr. destruct (Hind q hq Hr) as [(p' & -> & Hn & [_ Hp'])|[_ Hq]].
    - destruct (Hp' p' hq) as (F1 & F2 & F3); [apply rtc_refl|]. split; [by intros F; apply F1, (faults_pbind p' f)|].
      split; [by intros F; apply F2, (race_pbind p' f)|]. left. destruct F3 as [[[p2 h2] Hs]|[-> _]].
      + eexists. by apply step_pbind.
      + destruct Hn. by eexists.
    - apply Hq. apply rtc_refl.
  Qed.
  Lemma all_schedules_lift {A} (m : outcome A) a h : m = Ok a -> all_schedules (lift m : prog V A) h a h.
  Proof. intros ->. apply all_schedules_ret. Qed.

  (** a loop whose passes lead from one heap of the sequence [hs] to the next *)
  Lemma all_schedules_pfor (n lo : nat) (body : nat -> prog V unit) (hs : nat -> heap) :
    (forall i, lo <= i < lo + n -> all_schedules (body i) (hs i) tt (hs (S i))) ->
    all_schedules (pfor n lo body) (hs lo) tt (hs (lo + n)).
  Proof.
    revert lo. induction n as [|n IH]; intros lo Hb.
    - rewrite Nat.add_0_r. apply all_schedules_ret.
    - cbn [pfor]. eapply all_schedules_bind; [apply Hb; lia|]. rewrite <- Nat.add_succ_comm. apply IH. intros i Hi. apply Hb. lia.
  Qed.
  (** a sequential program: the schedule is its run *)
  Lemma all_schedules_alloc (b : buf) n (i : option V) h : all_free b n h -> all_schedules (alloc b n i) h tt (set_cells b n (Some i) h).
  Proof.
    intros Hf. apply (fp_all_schedules _ (fun _ => True) (fun _ => True)); [done|done|]. cbn [alloc run].
    by rewrite (proj2 (all_freeb_spec b n h) Hf).
  Qed.
  Lemma all_schedules_free (b : buf) n h : all_live b n h -> all_schedules (free b n) h tt (set_cells b n None h).
  Proof.
    intros Hf. apply (fp_all_schedules _ (fun _ => True) (fun _ => True)); [done|done|]. cbn [free run].
    by rewrite (proj2 (all_liveb_spec b n h) Hf).
  Qed.
  Lemma all_schedules_write l (v : V) h : is_Some (h !! l) -> all_schedules (write l v) h tt (upd (Some (Some v)) l h).
  Proof.
    intros [c Hc]. apply (fp_all_schedules _ (fun _ => True) (fun _ => True)); [done|done|]. cbn [write run]. by rewrite Hc.
  Qed.
End ParSeq.
