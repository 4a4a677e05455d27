(** ToolsProof.v: lemmas about the tools of Tools.v. *)
From Verif Require Export Tools.
From Verif Require Import ParCells PermuteProof IoProof Properties_Io Properties_Mm2.

(** ** The sequential run is one of the schedules *)
Section run.
  Context {V : Type}.
  Lemma steps_left {A} (p p' q : prog V unit) (k : prog V A) h h' :
    rtc (step unit) (p, h) (p', h') -> rtc (step A) (Fork p q k, h) (Fork p' q k, h').
  Proof.
    intros Hs. remember (p, h) as c eqn:Ec. remember (p', h') as c' eqn:Ec'. revert p h Ec.
    induction Hs as [c|c1 [p1 h1] c3 Hs Hsteps IH]; intros p h Ec; [by simplify_eq|]. subst c1.
    eapply rtc_l; [apply S_left; exact Hs|]. by apply IH.
  Qed.
  Lemma steps_right {A} (p q q' : prog V unit) (k : prog V A) h h' :
    rtc (step unit) (q, h) (q', h') -> rtc (step A) (Fork p q k, h) (Fork p q' k, h').
  Proof.
    intros Hs. remember (q, h) as c eqn:Ec. remember (q', h') as c' eqn:Ec'. revert q h Ec.
    induction Hs as [c|c1 [p1 h1] c3 Hs Hsteps IH]; intros q h Ec; [by simplify_eq|]. subst c1.
    eapply rtc_l; [apply S_right; exact Hs|]. by apply IH.
  Qed.
  Lemma run_steps {A} (p : prog V A) : forall h,
    match run p h with
    | Ok (a, h') => rtc (step A) (p, h) (Ret a, h')
    | _ => exists p' h', rtc (step A) (p, h) (p', h') /\ faults p' h'
    end.
  Proof.
    induction p as [A a|A f|A l k IH|A l v k IH|A b n c k IH|A b n k IH|A p IHp q IHq k IHk]; intros h; cbn [run].
    - done.
    - destruct f; cbn [failed]; eexists _, _; (split; [apply rtc_refl|done]).
    - destruct (h !! l) as [[v|]|] eqn:E.
      + specialize (IH v h). destruct (run (k v) h) as [[a h']| | |].
        * eapply rtc_l; [by apply S_read|done].
        * destruct IH as (p' & h' & H1 & H2). eexists _, _. split; [eapply rtc_l; [by apply S_read|exact H1]|done].
        * destruct IH as (p' & h' & H1 & H2). eexists _, _. split; [eapply rtc_l; [by apply S_read|exact H1]|done].
        * destruct IH as (p' & h' & H1 & H2). eexists _, _. split; [eapply rtc_l; [by apply S_read|exact H1]|done].
      + eexists _, _. split; [apply rtc_refl|]. simpl. rewrite E. done.
      + eexists _, _. split; [apply rtc_refl|]. simpl. rewrite E. done.
    - destruct (h !! l) as [c|] eqn:E; [|eexists _, _; split; [apply rtc_refl|]; simpl; by rewrite E].
      specialize (IH (upd (Some (Some v)) l h)).
      destruct (run k _) as [[a h']| | |];
        [eapply rtc_l; [by eapply S_write|done]|destruct IH as (p' & h' & H1 & H2); eexists _, _; split; [eapply rtc_l; [by eapply S_write|exact H1]|done]..].
    - destruct (all_freeb b n h) eqn:E.
      + apply all_freeb_spec in E. specialize (IH (set_cells b n (Some c) h)).
        destruct (run k _) as [[a h']| | |];
        [eapply rtc_l; [by apply S_alloc|done]|destruct IH as (p' & h' & H1 & H2); eexists _, _; split; [eapply rtc_l; [by apply S_alloc|exact H1]|done]..].
      + eexists _, _. split; [apply rtc_refl|]. simpl. rewrite <- all_freeb_spec, E. done.
    - destruct (all_liveb b n h) eqn:E.
      + apply all_liveb_spec in E. specialize (IH (set_cells b n None h)).
        destruct (run k _) as [[a h']| | |];
        [eapply rtc_l; [by apply S_free|done]|destruct IH as (p' & h' & H1 & H2); eexists _, _; split; [eapply rtc_l; [by apply S_free|exact H1]|done]..].
      + eexists _, _. split; [apply rtc_refl|]. simpl. rewrite <- all_liveb_spec, E. done.
    - specialize (IHp h). destruct (run p h) as [[[] h1]| | |]; cbn [mbind outcome_bind];
        [|destruct IHp as (p' & h' & H1 & H2); eexists _, _; (split; [apply steps_left; exact H1|left; done])..].
      specialize (IHq h1). destruct (run q h1) as [[[] h2]| | |]; cbn [mbind outcome_bind];
        [|destruct IHq as (p' & h' & H1 & H2); eexists _, _; (split; [eapply rtc_transitive; [apply steps_left; exact IHp|apply steps_right; exact H1]|right; done])..].
      specialize (IHk h2). assert (Hj : rtc (step A) (Fork p q k, h) (k, h2)).
      { eapply rtc_transitive; [apply steps_left; exact IHp|]. eapply rtc_transitive; [apply steps_right; exact IHq|]. apply rtc_once, S_join. }
      destruct (run k h2) as [[a h']| | |];
        [by eapply rtc_transitive|destruct IHk as (p' & h' & H1 & H2); eexists _, _; split; [by eapply rtc_transitive|done]..].
  Qed.
  Lemma ret_no_step {A} (a : A) h c : ~ step A (Ret (V:=V) a, h) c.
  Proof. intros Hs. inversion Hs. Qed.
  Lemma run_is_a_schedule {A} (p : prog V A) h a hf : all_schedules p h a hf -> run p h = Ok (a, hf).
  Proof.
    intros Hall. pose proof (run_steps p h) as Hr. destruct (run p h) as [[a' h']| | |].
    - destruct (all_schedules_unique _ _ _ _ _ _ Hall Hr (ret_no_step a' h')) as [E ->]. by injection E as ->.
    - destruct Hr as (p' & h' & H1 & H2). destruct Hall as [_ Hall]. by destruct (Hall _ _ H1) as [Hf _].
    - destruct Hr as (p' & h' & H1 & H2). destruct Hall as [_ Hall]. by destruct (Hall _ _ H1) as [Hf _].
    - destruct Hr as (p' & h' & H1 & H2). destruct Hall as [_ Hall]. by destruct (Hall _ _ H1) as [Hf _].
  Qed.
  Lemma read_back_heap_of (b : buf) (l : list V) : read_back (heap_of b l) b 0 (length l) = Ok l.
  Proof.
    enough (G : forall n i, i + n = length l -> read_back (heap_of b l) b i n = Ok (drop i l)).
    { rewrite G by lia. by rewrite drop_0. }
    induction n as [|n IH]; intros i Hi; cbn [read_back].
    - rewrite drop_ge by lia. done.
    - rewrite heap_of_lookup. cbn [fst snd]. rewrite decide_True by (split; [done|lia]).
      destruct (lookup_lt_is_Some_2 l i) as [v Hv]; [lia|]. rewrite Hv, IH by lia. cbn [mbind outcome_bind].
      by rewrite <- (drop_S l v i Hv).
  Qed.
  (** when all schedules agree on an array of the same length, so does the model of the section *)
  Lemma par_do_spec {A} (p : buf -> prog V A) (l l' : list V) (a : A) :
    length l' = length l -> all_schedules (p [false]) (heap_of [false] l) a (heap_of [false] l') -> par_do p l = Ok (a, l').
  Proof.
    intros Hl Hall. unfold par_do. rewrite (run_is_a_schedule _ _ _ _ Hall). cbn [mbind outcome_bind]. rewrite <- Hl.
    by rewrite read_back_heap_of.
  Qed.
End run.

(** ** Strings *)
Definition no_zero (s : bytes) : Prop := Forall (fun c => c <> 0) s.
Lemma no_zero_str (s : bytes) : forallb (fun c => negb (c =? 0)) s = true -> no_zero s.
Proof. intros Hf. apply Forall_forall. intros c Hc. rewrite forallb_forall in Hf. specialize (Hf c ltac:(by apply elem_of_list_In)). by destruct c. Qed.
Lemma write_run (g : nat -> nat) (buf : arr nat) off n : off + n <= length buf ->
  for_range 0 n (fun i b => aset b (off + i) (g i)) buf = Ok (take off buf ++ full (g <$> seq 0 n) ++ drop (off + n) buf).
Proof.
  intros Hn. apply wp_eq.
  apply (wp_for_range (fun i b => b = take off buf ++ full (g <$> seq 0 i) ++ drop (off + i) buf)); [lia| |].
  - cbn. rewrite Nat.add_0_r. by rewrite take_drop.
  - intros i b Hi ->. rewrite aset_ok. 2:{ rewrite !app_length, take_length, drop_length, full_length, fmap_length, seq_length. lia. }
    cbn [wp]. rewrite insert_app_r_alt by (rewrite take_length; lia). f_equal. rewrite take_length, Nat.min_l by lia.
    replace (off + i - off) with i by lia.
    rewrite insert_app_r_alt by (rewrite full_length, fmap_length, seq_length; lia).
    rewrite full_length, fmap_length, seq_length, Nat.sub_diag.
    rewrite seq_S. rewrite fmap_app. unfold full. rewrite fmap_app, <- app_assoc. f_equal. cbn.
    destruct (lookup_lt_is_Some_2 buf (off + i)) as [v Hv]; [lia|]. rewrite (drop_S buf v (off + i) Hv). cbn. by rewrite Nat.add_succ_r.
Qed.
Lemma nth_seq_take (s : bytes) n : n <= length s -> (fun i => nth i s 0) <$> seq 0 n = take n s.
Proof.
  intros Hn. apply list_eq. intros i. rewrite list_lookup_fmap. destruct (decide (i < n)) as [Hi|Hi].
  - rewrite lookup_seq_lt by done. cbn. rewrite lookup_take by done.
    destruct (lookup_lt_is_Some_2 s i) as [v Hv]; [lia|]. by rewrite (nth_lookup_Some _ _ _ _ Hv), Hv.
  - rewrite lookup_seq_ge by lia. rewrite lookup_take_ge by lia. done.
Qed.
Lemma strncpy_short (buf : arr nat) (s : bytes) n : length s < n -> n <= length buf ->
  exists rest, strncpy buf s n = Ok (full s ++ Some 0 :: rest) /\ length (full s ++ Some 0 :: rest) = length buf.
Proof.
  intros Hs Hn. unfold strncpy. pose proof (write_run (fun i => nth i s 0) buf 0 n Hn) as Hw. cbn [Nat.add take app] in Hw. rewrite Hw. clear Hw.
  assert (Hsplit : (fun i => nth i s 0) <$> seq 0 n = s ++ 0 :: replicate (n - S (length s)) 0).
  { apply list_eq. intros i. rewrite list_lookup_fmap. destruct (decide (i < n)) as [Hi|Hi].
    - rewrite lookup_seq_lt by done. cbn. destruct (decide (i < length s)) as [Hl|Hl].
      + rewrite lookup_app_l by done. destruct (lookup_lt_is_Some_2 s i Hl) as [v Hv]. by rewrite (nth_lookup_Some _ _ _ _ Hv), Hv.
      + rewrite lookup_app_r by lia. rewrite nth_overflow by lia. destruct (i - length s) as [|j] eqn:E; [done|]. cbn.
        symmetry. apply lookup_replicate_2. lia.
    - rewrite lookup_seq_ge by lia. cbn. rewrite lookup_ge_None_2; [done|]. rewrite app_length. cbn. rewrite replicate_length. lia. }
  rewrite Hsplit. unfold full. rewrite fmap_app. cbn. rewrite <- app_assoc. cbn. eexists. split; [reflexivity|].
  rewrite app_length. cbn. rewrite app_length, !fmap_length, replicate_length, drop_length. lia.
Qed.
Lemma strlen_string (s : bytes) rest : no_zero s -> strlen (full s ++ Some 0 :: rest) = Ok (length s).
Proof.
  induction 1 as [|c s Hc Hs IH]; [done|]. cbn. rewrite (proj2 (Nat.eqb_neq c 0)) by done. fold (full s). by rewrite IH.
Qed.
Lemma strlen_open (s : bytes) rest : no_zero s -> strlen (full s ++ None :: rest) = Undef Uninit.
Proof.
  induction 1 as [|c s Hc Hs IH]; [done|]. cbn. rewrite (proj2 (Nat.eqb_neq c 0)) by done. fold (full s). by rewrite IH.
Qed.
Lemma strcat_string (s t : bytes) rest : no_zero s -> length s + length t < length (full s ++ Some 0 :: rest) ->
  exists rest', strcat (full s ++ Some 0 :: rest) t = Ok (full (s ++ t) ++ Some 0 :: rest') /\
    length (full (s ++ t) ++ Some 0 :: rest') = length (full s ++ Some 0 :: rest).
Proof.
  intros Hs Hl. unfold strcat. rewrite strlen_string by done. cbn [mbind outcome_bind].
  pose proof (write_run (fun i => nth i t 0) (full s ++ Some 0 :: rest) (length s) (length t)) as Hw. rewrite Hw by lia. clear Hw. cbn [mbind outcome_bind].
  rewrite nth_seq_take by done. rewrite firstn_all. rewrite (take_app_alt (full s) _ (length s)) by (by rewrite full_length).
  set (B := full s ++ Some 0 :: rest) in *. unfold full at 1 2. rewrite app_assoc, <- fmap_app. fold (full (s ++ t)).
  rewrite aset_ok. 2:{ rewrite app_length, full_length, app_length, drop_length. lia. }
  destruct (lookup_lt_is_Some_2 B (length s + length t)) as [v Hv]; [lia|]. rewrite (drop_S B v _ Hv).
  eexists. split; [f_equal; rewrite insert_app_r_alt by (rewrite full_length, app_length; lia); rewrite full_length, app_length, Nat.sub_diag; reflexivity|].
  rewrite app_length, full_length. cbn. rewrite drop_length, app_length. lia.
Qed.
Lemma c_name_string (s : bytes) rest : no_zero s -> c_name (full s ++ Some 0 :: rest) = Ok s.
Proof.
  intros Hs. unfold c_name. rewrite strlen_string by done. cbn [mbind outcome_bind]. replace (Ok s) with (Ok (take (length s) s)) by (by rewrite firstn_all).
  apply wp_eq. apply (wp_for_range (fun i l => l = take i s)); [lia|done|]. intros i l Hi ->.
  destruct (lookup_lt_is_Some_2 s i) as [v Hv]; [lia|]. unfold aget. rewrite lookup_app_l by (rewrite full_length; lia).
  rewrite full_lookup, Hv. cbn. by rewrite (take_S_r _ _ _ Hv).
Qed.
(** a name that is short enough gets its suffix, whatever the buffer held *)
Lemma output_name_spec (buf : arr nat) (s suffix : bytes) n : no_zero s -> no_zero suffix ->
  length s < n -> n <= length buf -> length s + length suffix < length buf ->
  exists buf', output_name buf s n suffix = Ok (buf', s ++ suffix) /\ length buf' = length buf.
Proof.
  intros Hs Ht Hn Hb Hl. unfold output_name. destruct (strncpy_short buf s n Hn Hb) as (rest & -> & Hr). cbn [mbind outcome_bind].
  destruct (strcat_string s suffix rest Hs) as (rest' & -> & Hr'); [lia|]. cbn [mbind outcome_bind].
  rewrite c_name_string by (by apply Forall_app_2). cbn [mbind outcome_bind]. eexists. split; [done|]. lia.
Qed.
(** a first name that is too long is not terminated *)
Lemma output_name_long (s suffix : bytes) n m : no_zero s -> n <= length s -> n < m ->
  output_name (new_arr m) s n suffix = Undef Uninit.
Proof.
  intros Hs Hn Hm. unfold output_name, strncpy. pose proof (write_run (fun i => nth i s 0) (new_arr m) 0 n) as Hw. cbn [Nat.add take app] in Hw.
  rewrite Hw by (unfold new_arr; rewrite replicate_length; lia). clear Hw. cbn [mbind outcome_bind]. rewrite nth_seq_take by done.
  unfold strcat. unfold new_arr. rewrite drop_replicate. destruct (m - n) as [|j] eqn:E; [lia|]. cbn [replicate]. rewrite !take_0. cbn [app].
  rewrite strlen_open by (by apply Forall_take). done.
Qed.

Lemma whole_full {A} (l : list A) : whole (full l) = Ok l.
Proof. induction l as [|v l IH]; [done|]. cbn. fold (full l). by rewrite IH. Qed.
Lemma write_bin_array_full {A} (R : repr A) (l : list A) n : n <= length l -> write_bin_array R (full l) n = Ok (fwrite R (take n l)).
Proof.
  intros Hn. unfold write_bin_array.
  match goal with |- context [for_range 0 _ ?bd ?i] => assert (Hw : for_range 0 n bd i = Ok (take n l)) end.
  { apply wp_eq. apply (wp_for_range (fun i l' => l' = take i l)); [lia|done|]. intros i l' Hi ->.
    destruct (lookup_lt_is_Some_2 l i) as [v Hv]; [lia|]. rewrite aget_full, (lget_some _ _ _ Hv). cbn [mbind outcome_bind wp].
    by rewrite (take_S_r _ _ _ Hv). }
  by rewrite Hw.
Qed.

Lemma for_ret_n_ext {S R} n i (b1 b2 : nat -> S -> outcome (S + R)) st : (forall j s, b1 j s = b2 j s) -> for_ret_n n i b1 st = for_ret_n n i b2 st.
Proof. intros Hb. revert i st. induction n as [|n IH]; intros i st; [done|]. cbn. rewrite Hb. destruct (b2 i st) as [[?|?]| | |]; cbn; auto. Qed.
Lemma one2zero_values_spec (l : list nat) :
  one2zero_values (length l) (full l) = if decide (0 ∈ l) then Ok (inr 1%Z) else Ok (inl (full (pred <$> l))).
Proof.
  unfold one2zero_values, for_ret.
  enough (G : forall done todo, for_ret_n (length todo) (length done) (fun j a => v ← aget a j; if v =? 0 then Ok (inr 1%Z) else a ← aset a j (v - 1); Ok (inl a))
      (full (done ++ todo)) = if decide (0 ∈ todo) then Ok (inr 1%Z) else Ok (inl (full (done ++ (pred <$> todo))))) by apply (G [] l).
  intros done todo. revert done. induction todo as [|v todo IH]; intros done.
  - cbn. rewrite decide_False by (apply not_elem_of_nil). done.
  - cbn [length for_ret_n]. rewrite aget_full, (lget_some _ _ v) by (rewrite lookup_app_r by lia; by rewrite Nat.sub_diag). cbn [mbind outcome_bind].
    destruct (Nat.eqb_spec v 0) as [->|Hv].
    + cbn. rewrite decide_True by left. done.
    + rewrite aset_full by (rewrite app_length; cbn; lia). cbn [mbind outcome_bind]. rewrite insert_app_r_alt by lia. rewrite Nat.sub_diag. cbn.
      specialize (IH (done ++ [v - 1])). rewrite app_length in IH. cbn [length] in IH. rewrite Nat.add_1_r in IH.
      rewrite <- app_assoc in IH. cbn [app] in IH. rewrite IH. clear IH.
      destruct (decide (0 ∈ todo)) as [H0|H0].
      * rewrite decide_True by (by right). done.
      * rewrite decide_False by (intros Hin; apply elem_of_cons in Hin as [?|?]; [lia|done]). do 3 f_equal. rewrite <- app_assoc. cbn. f_equal. f_equal. lia.
Qed.
