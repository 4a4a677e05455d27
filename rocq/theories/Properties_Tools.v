(** Properties_Tools.v: C66, C67, C70: one2zero, check_results, double2float.
    [one2zero], [double2float], [check_results] model the code (Tools.v); a file system is a
    finite map from names to contents. *)
From Verif Require Import ToolsProof IoProof Properties_Io.
From Coq Require Import ZifyNat ZifyBool.

(** the items of a type in a file, in order; bytes at the end that make no item are left out *)
Definition items {A} (R : repr A) (f : bytes) : list A :=
  (fun i => dec R (take (sz R) (drop (i * sz R) f))) <$> seq 0 (length f / sz R).
(** contents are bytes *)
Definition real_files (F : fs) : Prop := map_Forall (fun _ f => Forall (fun b => b < 256) f) F.
(** an argument that fits the tools' file name buffer (128 characters) *)
Definition good_name (s : bytes) : Prop := no_zero s /\ length s <= 120.

Lemma items_fread {A} (R : repr A) (f : bytes) n : 0 < sz R -> n <= length f / sz R ->
  exists f', fread_items R n f = (take n (items R f), f').
Proof.
  intros Hs Hn. destruct (fread_items_spec R n f Hs) as (l & f' & -> & Hl & Hi & _). exists f'. f_equal.
  rewrite Nat.min_l in Hl by done. apply list_eq. intros i. unfold items. rewrite <- fmap_take.
  destruct (decide (i < n)) as [Hlt|Hge].
  - rewrite Hi by lia. rewrite list_lookup_fmap, lookup_take, lookup_seq_lt by lia. done.
  - rewrite (lookup_ge_None_2 l) by lia. rewrite list_lookup_fmap, lookup_take_ge by lia. done.
Qed.
Lemma items_length {A} (R : repr A) f : length (items R f) = length f / sz R.
Proof. unfold items. by rewrite fmap_length, seq_length. Qed.
Lemma items_fwrite {A} (R : repr A) (l : list A) : faithful (fun v => v ∈ l) R -> items R (fwrite R l) = l.
Proof.
  intros Hf. pose proof Hf as [Hs Hf']. pose proof (fread_items_fwrite R l [] Hf) as Hr. rewrite app_nil_r in Hr.
  assert (Hl : length (fwrite R l) / sz R = length l). { rewrite fwrite_length by (intros; by apply Hf'). by rewrite Nat.div_mul by lia. }
  destruct (items_fread R (fwrite R l) (length l) Hs) as [f' Hi]; [lia|]. rewrite Hr in Hi. injection Hi as Hi _. rewrite Hi at 2.
  rewrite firstn_all2; [done|]. rewrite items_length. lia.
Qed.
Lemma le_val_bound (l : bytes) : Forall (fun b => b < 256) l -> le_val l < 256 ^ length l.
Proof.
  induction 1 as [|b l Hb Hl IH]; [cbn; lia|]. cbn [le_val length]. rewrite Nat.pow_succ_r'. lia.
Qed.
Lemma items_bound `{Widths} (k : nat) (f : bytes) (v : nat) : index_bytes k -> Forall (fun b => b < 256) f -> v ∈ items (index_repr k) f -> v < itW.
Proof.
  intros [Hk HW] Hf Hv. unfold items in Hv. apply elem_of_list_fmap in Hv as (i & -> & Hi). apply elem_of_seq in Hi. cbn [sz dec index_repr] in *.
  rewrite HW. eapply Nat.lt_le_trans; [apply le_val_bound; by apply Forall_take, Forall_drop|].
  apply Nat.pow_le_mono_r; [lia|]. rewrite take_length. lia.
Qed.
Lemma le_bytes_bound k n : Forall (fun b => b < 256) (le_bytes k n).
Proof. revert n. induction k as [|k IH]; intros n; cbn; constructor; [|done]. apply Nat.mod_upper_bound. lia. Qed.
Lemma fwrite_bound k l : Forall (fun b => b < 256) (fwrite (index_repr k) l).
Proof. unfold fwrite. induction l as [|v l IH]; cbn; [constructor|]. apply Forall_app_2; [apply le_bytes_bound|done]. Qed.

(** ** C66 *)
(** the first name too long for the buffer: its copy is not terminated *)
Theorem C66_long_name_refuted `{Widths} (k : nat) (name : bytes) (rest : list bytes) (F : fs) :
  no_zero name -> 121 <= length name -> one2zero k (name :: rest) F = Undef Uninit.
Proof. intros Hz Hl. unfold one2zero, one2zero_files, one2zero_file. by rewrite output_name_long by (done || lia). Qed.

Lemma one2zero_file_spec `{Widths} (k : nat) (name : bytes) (F : fs) (buf : arr nat) (f : bytes) : index_bytes k -> good_name name -> length buf = 128 ->
  F !! name = Some f -> exists buf', length buf' = 128 /\
  let l := take ((length f / k) mod itW) (items (index_repr k) f) in
  one2zero_file k name F buf =
    if decide (0 ∈ l) then Ok (inr (1%Z, F)) else Ok (inl (<[name ++ str ".zero" := fwrite (index_repr k) (pred <$> l)]> F, buf')).
Proof.
  intros Hk [Hz Hlen] Hb Hf. pose proof Hk as [Hk0 HW].
  destruct (output_name_spec buf name (str ".zero") 121) as (buf' & Ho & Hb'); [done|by apply no_zero_str|lia|lia|cbn; lia|].
  exists buf'. split; [lia|]. cbv zeta. unfold one2zero_file. rewrite Ho. cbn [mbind outcome_bind]. rewrite Hf, div_ok by done. cbn [mbind outcome_bind].
  change (wrap (length f / k)) with ((length f / k) mod itW). set (n := (length f / k) mod itW).
  assert (Hn : n <= length f / k) by (apply Nat.mod_le; rewrite HW; by apply Nat.pow_nonzero).
  destruct (items_fread (index_repr k) f n Hk0 Hn) as [f' ->]. set (l := take n _).
  assert (Hl : length l = n) by (unfold l; rewrite take_length, items_length; cbn [sz index_repr]; lia).
  rewrite Hl, Nat.sub_diag. unfold new_arr. cbn [replicate]. rewrite app_nil_r. rewrite <- Hl at 1. rewrite one2zero_values_spec.
  destruct (decide (0 ∈ l)); [done|]. cbn [mbind outcome_bind]. rewrite write_bin_array_full by (rewrite fmap_length; lia). cbn [mbind outcome_bind].
  rewrite firstn_all2 by (rewrite fmap_length; lia). done.
Qed.

(** all files up to the first bad one are converted, and nothing else is touched *)
Theorem C66_all_or_none `{Widths} (k : nat) (args : list bytes) (F : fs) :
  let RI := index_repr k in
  index_bytes k -> args <> [] -> Forall good_name args -> real_files F ->
  (forall a b, a ∈ args -> b ∈ args -> a <> b ++ str ".zero") ->
  (forall a f, a ∈ args -> F !! a = Some f -> length (items RI f) < itW) ->
  exists code F' pre post, one2zero k args F = Ok (code, F') /\ args = pre ++ post /\
    (code = 0%Z /\ post = [] \/
     code = 1%Z /\ exists bad rest, post = bad :: rest /\ forall f, F !! bad = Some f -> 0 ∈ items RI f) /\
    (forall a, a ∈ pre -> exists f g, F !! a = Some f /\ 0 ∉ items RI f /\
       F' !! (a ++ str ".zero") = Some g /\ items RI g = pred <$> items RI f) /\
    (forall n, (forall a, a ∈ pre -> n <> a ++ str ".zero") -> F' !! n = F !! n).
Proof.
  intros RI Hk Hne Hgood Hreal Hsep Hsmall.
  assert (Hmain : exists code F' pre post, one2zero_files k args F (new_arr 128) = Ok (code, F') /\ args = pre ++ post /\
    (code = 0%Z /\ post = [] \/
     code = 1%Z /\ exists bad rest, post = bad :: rest /\ forall f, F !! bad = Some f -> 0 ∈ items RI f) /\
    (forall a, a ∈ pre -> exists f g, F !! a = Some f /\ 0 ∉ items RI f /\
       F' !! (a ++ str ".zero") = Some g /\ items RI g = pred <$> items RI f) /\
    (forall n, (forall a, a ∈ pre -> n <> a ++ str ".zero") -> F' !! n = F !! n)).
  2:{ destruct Hmain as (code & F' & pre & post & Hr & Hrest). exists code, F', pre, post. split; [|done].
      unfold one2zero. by destruct args. }
  assert (Hbuf : length (@new_arr nat 128) = 128) by done. revert Hbuf. generalize (@new_arr nat 128). intros buf Hbuf. clear Hne.
  revert F buf Hreal Hsmall Hbuf Hgood Hsep. induction args as [|name args IH]; intros F buf Hreal Hsmall Hbuf Hgood Hsep.
  { exists 0%Z, F, [], []. split; [done|]. split; [done|]. split; [by left|]. split; [intros a Ha; by apply elem_of_nil in Ha|done]. }
  apply Forall_cons in Hgood as [Hname Hgood]. cbn [one2zero_files].
  destruct (F !! name) as [f|] eqn:Hf.
  2:{ exists 1%Z, F, [], (name :: args). split; [|split; [done|]].
      - unfold one2zero_file. destruct Hname as [Hz Hlen].
        destruct (output_name_spec buf name (str ".zero") 121) as (buf' & Ho & Hb'); [done|by apply no_zero_str|lia|lia|cbn; lia|].
        rewrite Ho. cbn [mbind outcome_bind]. by rewrite Hf.
      - split; [right; split; [done|]; exists name, args; split; [done|]; intros f' Hf'; congruence|].
        split; [intros a Ha; by apply elem_of_nil in Ha|done]. }
  destruct (one2zero_file_spec k name F buf f Hk Hname Hbuf Hf) as (buf' & Hb' & Hspec). cbv zeta in Hspec. fold RI in Hspec.
  assert (Hlt : length f / k < itW). { pose proof (Hsmall name f ltac:(left) Hf) as Hs. rewrite items_length in Hs. exact Hs. }
  rewrite (Nat.mod_small _ _ Hlt) in Hspec. rewrite firstn_all2 in Hspec by (rewrite items_length; cbn [sz RI index_repr]; lia).
  rewrite Hspec. clear Hspec. destruct (decide (0 ∈ items RI f)) as [H0|H0].
  { cbn [mbind outcome_bind]. exists 1%Z, F, [], (name :: args). split; [done|]. split; [done|].
    split; [right; split; [done|]; exists name, args; split; [done|]; intros f' Hf'; by simplify_eq|].
    split; [intros a Ha; by apply elem_of_nil in Ha|done]. }
  cbn [mbind outcome_bind]. set (g := fwrite RI (pred <$> items RI f)). set (F1 := <[name ++ str ".zero" := g]> F).
  assert (HF1 : forall a, a ∈ name :: args -> F1 !! a = F !! a).
  { intros a Ha. unfold F1. apply lookup_insert_ne. intros Heq. apply (Hsep a name); [done|left|done]. }
  assert (Hg : items RI g = pred <$> items RI f).
  { apply items_fwrite. apply (faithful_RI k Hk). intros v Hv. apply elem_of_list_fmap in Hv as (w & -> & Hw).
    pose proof (items_bound k f w Hk (Hreal name f Hf) Hw). lia. }
  destruct (IH F1 buf') as (code & F' & pre & post & Hrun & Hargs & Hcode & Hpre & Hother).
  - intros n c Hn. unfold F1 in Hn. apply lookup_insert_Some in Hn as [[<- <-]|[_ Hn]]; [apply fwrite_bound|by apply (Hreal n)].
  - intros a c Ha Hc. rewrite HF1 in Hc by (by right). apply (Hsmall a c); [by right|done].
  - done.
  - done.
  - intros a b Ha Hb. apply Hsep; by right.
  - exists code, F', (name :: pre), post. split; [done|]. split; [by rewrite Hargs|].
    assert (Hin : forall a, a ∈ pre -> a ∈ name :: args) by (intros a Ha; right; rewrite Hargs; apply elem_of_app; by left).
    split; [|split].
    + destruct Hcode as [?|(Hc & bad & rest & Hp & Hbad)]; [by left|]. right. split; [done|]. exists bad, rest. split; [done|].
      intros c Hc'. apply Hbad. rewrite HF1; [done|]. right. rewrite Hargs, Hp. apply elem_of_app. right. left.
    + intros a Ha. destruct (decide (a ∈ pre)) as [Hap|Hap].
      * destruct (Hpre a Hap) as (f' & g' & H1 & H2 & H3 & H4). rewrite HF1 in H1 by auto. eauto 10.
      * apply elem_of_cons in Ha as [->|?]; [|done]. exists f, g. split; [done|]. split; [done|]. split; [|done].
        rewrite Hother; [unfold F1; by rewrite lookup_insert|]. intros a Ha Heq. apply app_inv_tail in Heq as ->. done.
    + intros n Hn. rewrite Hother by (intros a Ha; apply Hn; by right). unfold F1. rewrite lookup_insert_ne; [done|]. intros <-. apply (Hn name); [left|done].
Qed.
(** an index file with as many items as the index type has values or more is cut short *)
Theorem C66_large_refuted `{Widths} (k : nat) (name : bytes) (f : bytes) (F : fs) :
  let RI := index_repr k in
  index_bytes k -> good_name name -> F !! name = Some f -> itW <= length (items RI f) -> 0 ∉ items RI f ->
  exists F' g, one2zero k [name] F = Ok (0%Z, F') /\ F' !! (name ++ str ".zero") = Some g /\
    length (items RI g) = length (items RI f) mod itW /\ length (items RI g) < length (items RI f).
Proof.
  intros RI Hk Hn Hf Hbig H0. pose proof Hk as [Hk0 HW].
  destruct (one2zero_file_spec k name F (new_arr 128) f Hk Hn ltac:(done) Hf) as (buf' & Hb' & Hspec). cbv zeta in Hspec. fold RI in Hspec.
  unfold one2zero, one2zero_files. rewrite Hspec. clear Hspec. rewrite decide_False. 2:{ intros Hin. apply H0. eapply elem_of_submseteq; [exact Hin|]. apply sublist_submseteq, sublist_take. }
  cbn [mbind outcome_bind]. eexists _, _. split; [done|]. rewrite lookup_insert. split; [done|].
  assert (Hpos : 0 < itW) by (rewrite HW; pose proof (Nat.pow_nonzero 256 k); lia).
  assert (Hlen : forall l, length (items RI (fwrite RI l)) = length l).
  { intros l. rewrite items_length, fwrite_length; [by rewrite Nat.div_mul by (cbn; lia)|]. intros v _. apply le_bytes_length. }
  rewrite Hlen, fmap_length, take_length. rewrite items_length in Hbig |- *. cbn [sz RI index_repr] in *.
  pose proof (Nat.mod_upper_bound (length f / k) itW ltac:(lia)). lia.
Qed.

(** ** C67 *)
Theorem C67_check_results {T} `{Widths} (neq : T -> T -> bool) (v w : list T) (size : nat) :
  size < itW -> size <= length v -> size <= length w ->
  exists r, check_results neq v w size = Ok r /\ (r = 0%Z \/ r = (-1)%Z) /\
    (r = 0%Z <-> forall i a b, i < size -> v !! i = Some a -> w !! i = Some b -> neq a b = false).
Proof.
  intros Hs Hv Hw. unfold check_results.
  match goal with |- context [for_range 0 size ?bd 0] =>
    assert (Hloop : wp (for_range 0 size bd 0) (fun n => n <= size /\
      (n = 0 <-> forall i a b, i < size -> v !! i = Some a -> w !! i = Some b -> neq a b = false))) end.
  { apply (wp_for_range (fun j n => n <= j /\ (n = 0 <-> forall i a b, i < j -> v !! i = Some a -> w !! i = Some b -> neq a b = false))); [lia|split; [lia|split; [intros _ i a b Hi; lia|done]]|].
    intros j n Hj [Hn Hiff]. destruct (lookup_lt_is_Some_2 v j) as [a Ha]; [lia|]. destruct (lookup_lt_is_Some_2 w j) as [b Hb]; [lia|].
    rewrite (lget_some _ _ _ Ha). cbn [mbind outcome_bind]. rewrite (lget_some _ _ _ Hb). cbn [mbind outcome_bind wp].
    destruct (neq a b) eqn:E.
    - unfold wadd. rewrite wrap_small by lia. split; [lia|]. split; [lia|]. intros Hall. specialize (Hall j a b ltac:(lia) Ha Hb). congruence.
    - split; [lia|]. rewrite Hiff. split; intros Hall i a' b' Hi Ha' Hb'.
      + destruct (decide (i = j)) as [->|]; [congruence|]. apply (Hall i); [lia|done..].
      + apply (Hall i); [lia|done..]. }
  apply wp_exists in Hloop as (n & -> & Hn & Hiff). cbn [mbind outcome_bind]. eexists. split; [done|].
  destruct (Nat.ltb_spec 0 n); (split; [auto|]); rewrite <- Hiff; split; intros; try done; lia.
Qed.

(** ** C70 *)
(** every whole value of the input is converted, in order, into the output, whatever it held;
    an input that cannot be opened ends the run, after its output has been emptied *)
Section C70.
  Context `{Widths} {D S : Type} (RD : repr D) (RS : repr S) (conv : D -> S).
  Lemma d2f_loop_spec f : 0 < sz RD -> d2f_loop RD RS conv f = Ok (fwrite RS (conv <$> items RD f)).
  Proof.
    intros Hs. unfold d2f_loop.
    enough (G : forall fuel f out, Datatypes.S (length f) < fuel -> exists f',
      while_ fuel (fun '(f, _, stop) => Ok (negb stop))
        (fun '(f, out, _) =>
           match fread1 RD None f with
           | (O, _, f) => Ok (f, out, true)
           | (_, v, f) => v ← use v; Ok (f, out ++ enc RS (conv v), false)
           end) (f, out, false) = Ok (f', out ++ fwrite RS (conv <$> items RD f), true)).
    { destruct (G (Datatypes.S (Datatypes.S (length f))) f [] ltac:(lia)) as [f' Hf']. rewrite Hf'. done. }
    clear f. induction fuel as [|fuel IH]; intros f out Hfuel; [lia|]. cbn [while_ negb mbind outcome_bind].
    destruct (decide (sz RD <= length f)) as [Hle|Hgt].
    - assert (Hr : fread1 RD None f = (1, Some (dec RD (take (sz RD) f)), drop (sz RD) f)) by (unfold fread1; by rewrite decide_True).
      rewrite Hr. clear Hr. cbn [use mbind outcome_bind].
      destruct (IH (drop (sz RD) f) (out ++ enc RS (conv (dec RD (take (sz RD) f))))) as [f' Hf']; [rewrite drop_length; lia|].
      exists f'. rewrite Hf'. do 2 f_equal. f_equal. rewrite <- app_assoc. f_equal.
      assert (Hit : items RD f = dec RD (take (sz RD) f) :: items RD (drop (sz RD) f)).
      { unfold items. rewrite drop_length. replace (length f / sz RD) with (Datatypes.S ((length f - sz RD) / sz RD)).
        2:{ rewrite <- Nat.div_add_l with (a := 1) (b := sz RD) by lia. f_equal. lia. }
        cbn [seq fmap list_fmap Nat.mul]. rewrite drop_0. f_equal. rewrite <- fmap_S_seq, <- list_fmap_compose. apply list_fmap_ext. intros i j _. unfold compose. do 2 f_equal.
        rewrite drop_drop. f_equal; lia. }
      rewrite Hit. done.
    - assert (Hr : exists v, fread1 RD None f = (0, v, [])) by (unfold fread1; rewrite decide_False by done; eauto).
      destruct Hr as [v ->]. exists []. destruct fuel as [|fuel]; [lia|]. cbn [mbind outcome_bind while_ negb]. do 2 f_equal.
      assert (Hit : items RD f = []). { unfold items. rewrite Nat.div_small by lia. done. }
      rewrite Hit. f_equal. cbn. by rewrite app_nil_r.
  Qed.
  Theorem C70_double2float (args : list bytes) (F : fs) :
    0 < sz RD -> args <> [] -> Forall good_name args ->
    (forall a b, a ∈ args -> b ∈ args -> a <> b ++ str ".float") ->
    exists code F' pre post, double2float RD RS conv args F = Ok (code, F') /\ args = pre ++ post /\
      (code = 0%Z /\ post = [] \/
       code = 1%Z /\ exists bad rest, post = bad :: rest /\ F !! bad = None /\ F' !! (bad ++ str ".float") = Some []) /\
      (forall a, a ∈ pre -> exists f, F !! a = Some f /\ F' !! (a ++ str ".float") = Some (fwrite RS (conv <$> items RD f))) /\
      (forall n, (forall a, a ∈ args -> n <> a ++ str ".float") -> F' !! n = F !! n).
  Proof.
    intros Hs Hne Hgood Hsep.
    enough (Hmain : exists code F' pre post, d2f_files RD RS conv args F (new_arr 128) = Ok (code, F') /\ args = pre ++ post /\
      (code = 0%Z /\ post = [] \/
       code = 1%Z /\ exists bad rest, post = bad :: rest /\ F !! bad = None /\ F' !! (bad ++ str ".float") = Some []) /\
      (forall a, a ∈ pre -> exists f, F !! a = Some f /\ F' !! (a ++ str ".float") = Some (fwrite RS (conv <$> items RD f))) /\
      (forall n, (forall a, a ∈ pre ++ take 1 post -> n <> a ++ str ".float") -> F' !! n = F !! n)).
    { destruct Hmain as (code & F' & pre & post & Hr & Ha & H1 & H2 & H3). exists code, F', pre, post. split; [unfold double2float; by destruct args|].
      split; [done|]. split; [done|]. split; [done|]. intros n Hn. apply H3. intros a Hin. apply Hn. rewrite Ha.
      apply elem_of_app in Hin as [?|Hin]; apply elem_of_app; [by left|right]. eapply elem_of_submseteq; [exact Hin|]. apply sublist_submseteq, sublist_take. }
    assert (Hbuf : length (@new_arr nat 128) = 128) by done. revert Hbuf. generalize (@new_arr nat 128). intros buf Hbuf. clear Hne.
    revert F buf Hbuf Hgood Hsep. induction args as [|name args IH]; intros F buf Hbuf Hgood Hsep.
    { exists 0%Z, F, [], []. split; [done|]. split; [done|]. split; [by left|]. split; [intros a Ha; by apply elem_of_nil in Ha|done]. }
    apply Forall_cons in Hgood as [Hname Hgood]. cbn [d2f_files]. unfold d2f_file. destruct Hname as [Hz Hlen].
    destruct (output_name_spec buf name (str ".float") 121) as (buf' & Ho & Hb'); [done|by apply no_zero_str|lia|lia|cbn; lia|].
    rewrite Ho. cbn [mbind outcome_bind]. destruct (F !! name) as [f|] eqn:Hf.
    2:{ cbn [mbind outcome_bind]. eexists 1%Z, _, [], (name :: args). split; [done|]. split; [done|].
        split; [right; split; [done|]; exists name, args; split; [done|]; split; [done|by rewrite lookup_insert]|].
        split; [intros a Ha; by apply elem_of_nil in Ha|]. intros n Hn. apply lookup_insert_ne. intros <-. apply (Hn name); [cbn; left|done]. }
    rewrite d2f_loop_spec by done. cbn [mbind outcome_bind]. rewrite insert_insert. set (g := fwrite RS _). set (F1 := <[name ++ str ".float" := g]> F).
    assert (HF1 : forall a, a ∈ name :: args -> F1 !! a = F !! a).
    { intros a Ha. unfold F1. apply lookup_insert_ne. intros Heq. apply (Hsep a name); [done|left|done]. }
    destruct (IH F1 buf') as (code & F' & pre & post & Hrun & Hargs & Hcode & Hpre & Hother).
    - lia.
    - done.
    - intros a b Ha Hb. apply Hsep; by right.
    - exists code, F', (name :: pre), post. split; [done|]. split; [by rewrite Hargs|].
      assert (Hin : forall a, a ∈ pre -> a ∈ name :: args) by (intros a Ha; right; rewrite Hargs; apply elem_of_app; by left).
      assert (Hbadin : forall bad rest, post = bad :: rest -> bad ∈ name :: args) by (intros bad rest ->; right; rewrite Hargs; apply elem_of_app; right; left).
      split; [|split].
      + destruct Hcode as [?|(Hc & bad & rest & Hp & Hbad & Hempty)]; [by left|]. right. split; [done|]. exists bad, rest. split; [done|].
        split; [|done]. rewrite <- Hbad. symmetry. apply HF1. eauto.
      + intros a Ha. destruct (decide (a ∈ pre)) as [Hap|Hap].
        * destruct (Hpre a Hap) as (f' & H1 & H2). rewrite HF1 in H1 by auto. eauto 10.
        * apply elem_of_cons in Ha as [->|?]; [|done]. exists f. split; [done|].
          rewrite Hother; [unfold F1; by rewrite lookup_insert|]. intros a Ha Heq. apply app_inv_tail in Heq as ->.
          apply elem_of_app in Ha as [?|Ha]; [done|]. destruct Hcode as [[_ ->]|(_ & bad & rest & Hp & Hbad & _)]; [cbn in Ha; by apply elem_of_nil in Ha|].
          subst post. cbn in Ha. apply elem_of_list_singleton in Ha as ->. rewrite HF1 in Hbad by left. congruence.
      + intros n Hn. rewrite Hother by (intros a Ha; apply Hn; by right). unfold F1. rewrite lookup_insert_ne; [done|]. intros <-. apply (Hn name); [left|done].
  Qed.
End C70.

(** ** Cases *)
Definition ex_W8 : Widths := {| itW := 256; sitW := 16 |}.
Definition ex_fs : fs := <[str "r" := [3; 1; 2]]> {[str "c" := [1; 0]]}.
Example C66_ex :
  @index_bytes ex_W8 1 /\ Forall good_name [str "r"; str "c"] /\ real_files ex_fs /\
  (forall a b, a ∈ [str "r"; str "c"] -> b ∈ [str "r"; str "c"] -> a <> b ++ str ".zero") /\
  (forall a f, a ∈ [str "r"; str "c"] -> ex_fs !! a = Some f -> length (items (index_repr 1) f) < 256) /\
  match @one2zero ex_W8 1 [str "r"; str "c"] ex_fs with
  | Ok (code, F') => code = 1%Z /\ F' !! str "r.zero" = Some [2; 0; 1] /\ F' !! str "c.zero" = None
  | _ => False
  end.
Proof.
  split; [split; [lia|done]|]. split; [repeat constructor; try done; cbn; lia|].
  split; [intros n f Hf; unfold ex_fs in Hf; apply lookup_insert_Some in Hf as [[_ <-]|[_ Hf]]; [repeat constructor; lia|apply lookup_singleton_Some in Hf as [_ <-]; repeat constructor; lia]|].
  split.
  { intros a b Ha Hb Heq. apply (f_equal length) in Heq. rewrite app_length in Heq.
    rewrite !elem_of_cons, elem_of_nil in Ha, Hb. destruct Ha as [->|[->|[]]], Hb as [->|[->|[]]]; cbn in Heq; lia. }
  split; [|vm_compute; done].
  intros a f _ Hf. rewrite items_length. cbn [sz index_repr]. rewrite Nat.div_1_r. unfold ex_fs in Hf.
  apply lookup_insert_Some in Hf as [[_ <-]|[_ Hf]]; [cbn; lia|apply lookup_singleton_Some in Hf as [_ <-]; cbn; lia].
Qed.
Example C66_ex_large :
  let f := replicate 300 5 in
  @index_bytes ex_W8 1 /\ good_name (str "r") /\ 256 <= length (items (index_repr 1) f) /\ 0 ∉ items (index_repr 1) f.
Proof.
  cbv zeta. split; [split; [lia|done]|]. split; [split; [repeat constructor; done|cbn; lia]|].
  rewrite items_length. cbn [sz index_repr]. rewrite Nat.div_1_r, replicate_length. split; [lia|].
  assert (Hd : bool_decide (0 ∈ items (index_repr 1) (replicate 300 5)) = false) by (vm_compute; reflexivity).
  by apply bool_decide_eq_false in Hd.
Qed.
Example C67_ex : @check_results Z ex_W8 (fun a b => negb (a =? b)%Z) [1; 2; 3]%Z [1; 2; 4]%Z 3 = Ok (-1)%Z /\
  @check_results Z ex_W8 (fun a b => negb (a =? b)%Z) [1; 2; 3]%Z [1; 2; 4]%Z 2 = Ok 0%Z.
Proof. done. Qed.
Example C70_ex :
  match double2float (index_repr 2) (index_repr 1) (fun n => n / 256) [str "r"; str "x"] (<[str "x.float" := [7]]> ex_fs) with
  | Ok (code, F') => code = 1%Z /\ F' !! str "r.float" = Some [1] /\ F' !! str "x.float" = Some []
  | _ => False
  end.
Proof. vm_compute. done. Qed.
