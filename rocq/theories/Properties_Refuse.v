(** Properties_Refuse.v: C99, unusable input and the files a tool may change
    (include/io/input.h:43-127, 273-328, dep/mm_io/mm_io.c:54-166, 407-470, src/tools). *)
From Verif Require Export RefuseProof.
From Verif Require Import IoProof Properties_Io MmProof Mm2Proof Properties_Mm Properties_Mm2 ToolsProof Properties_Tools4.
From Coq Require Import ZifyNat ZifyBool ZifyN.

(** ** The Matrix Market reader *)
Section mm.
  Context {T : Type} `{Widths} (scan_g : bytes -> option T * bytes).

  (** whatever the file holds: code 0 comes with a matrix, any other code is between -4 and
      -1 and comes without one *)
  Theorem C99_mm_codes fuel file c A : read_mm_COO scan_g fuel file = Ok (c, A) ->
    (c = 0%Z /\ A <> None) \/ ((-4 <= c <= -1)%Z /\ A = None).
  Proof.
    unfold read_mm_COO. destruct file as [f|]; [|intros [= <- <-]; by right]. intros Hr. okstep Hr. destruct (negb _); [injection Hr as <- <-; by right|].
    destruct (_ || _); [injection Hr as <- <-; by right|]. okstep Hr. destruct (negb _); [injection Hr as <- <-; by right|].
    okstep Hr. okstep Hr. injection Hr as <- <-. by left.
  Qed.
  (** no file *)
  Theorem C99_mm_missing fuel : read_mm_COO scan_g fuel None = Ok ((-1)%Z, None).
  Proof. done. Qed.
  (** the first line names no type of matrix *)
  Theorem C99_mm_banner fuel f : short_words (first_line f) -> (forall t, ~ names_type (words (first_line f)) t) ->
    read_mm_COO scan_g fuel (Some f) = Ok ((-2)%Z, None).
  Proof.
    intros Hs Ht. unfold read_mm_COO. destruct (proj1 (C60_defined f) Hs) as (code & t & rest & E). rewrite E. cbn [mbind outcome_bind].
    destruct (Z.eqb_spec code 0) as [->|Hc]; [|done]. exfalso. apply (C59_reads f t rest Hs) in E as [E _]. by apply (Ht t).
  Qed.
  (** a type that is complex or not a list of coordinates *)
  Theorem C99_mm_kind fuel f t : short_words (first_line f) -> names_type (words (first_line f)) t -> (t_field t = chr "C" \/ t_format t <> chr "C") ->
    read_mm_COO scan_g fuel (Some f) = Ok ((-3)%Z, None).
  Proof.
    intros Hs Ht Hk. unfold read_mm_COO. rewrite (proj2 (C59_reads f t (after_first_line f) Hs)) by done. cbn [mbind outcome_bind]. change (negb (0 =? 0)%Z) with false. cbv iota.
    assert (mm_is_complex t || negb (mm_is_coordinate t) = true) as ->; [|done]. unfold mm_is_complex, mm_is_coordinate. apply orb_true_iff. destruct Hk as [->|Hk]; [left; apply Nat.eqb_refl|right].
    by rewrite (proj2 (Nat.eqb_neq _ _) Hk).
  Qed.
  (** a usable first line with nothing but comments after it *)
  Theorem C99_mm_no_size fuel f t cs : short_words (first_line f) -> names_type (words (first_line f)) t -> t_field t <> chr "C" -> t_format t = chr "C" ->
    Forall comment_line cs -> after_first_line f = concat cs ->
    read_mm_COO scan_g fuel (Some f) = Ok ((-4)%Z, None).
  Proof.
    intros Hs Ht Hx Hc Hcs Ha. unfold read_mm_COO. rewrite (proj2 (C59_reads f t (after_first_line f) Hs)) by done. cbn [mbind outcome_bind]. change (negb (0 =? 0)%Z) with false. cbv iota.
    unfold mm_is_complex, mm_is_coordinate. rewrite (proj2 (Nat.eqb_neq _ _) Hx), Hc, Nat.eqb_refl. cbn [orb negb]. rewrite Ha.
    unfold mm_read_mtx_crd_size. pose proof (skip_comments_end cs [] (S (length (concat cs))) Hcs eq_refl ltac:(lia)) as E. rewrite app_nil_r in E. rewrite E. done.
  Qed.

  (** the binary reader: code 0 comes with a matrix, code -4 with one that is not filled,
      the codes -1 and -2 with none *)
  Theorem C99_bin_codes (RT : repr T) k file c A : read_bin_COO RT k file = Ok (c, A) ->
    (c = 0%Z /\ A <> None) \/ (c = (-4)%Z /\ A <> None) \/ ((c = (-1)%Z \/ c = (-2)%Z) /\ A = None).
  Proof.
    unfold read_bin_COO. destruct file as [f|]; [|intros [= <- <-]; auto]. destruct (fread1 _ _ _) as [[n1 [r|]] f1]; destruct (fread1 _ _ _) as [[n2 [c2|]] f2]; destruct (fread1 _ _ _) as [[n3 [z|]] f3];
      (destruct (negb _); [intros [= <- <-]; by right; right; auto|]); try done. intros Hr. okstep Hr. okstep Hr. okstep Hr. destruct (negb _) in Hr; injection Hr as <- <-; auto.
  Qed.
  (** ... and when: -1 if there is no file, -2 if it does not hold three numbers *)
  Theorem C99_bin_refused (RT : repr T) k : 0 < k ->
    read_bin_COO RT k None = Ok ((-1)%Z, None) /\ forall f, length f < 3 * k -> read_bin_COO RT k (Some f) = Ok ((-2)%Z, None).
  Proof.
    intros Hk. split; [done|]. intros f Hf. unfold read_bin_COO. assert (Hs : sz (index_repr k) = k) by done. unfold fread1. rewrite Hs.
    assert (Hd0 : forall n, n < k -> drop n (@nil nat) = []) by (intros n _; by rewrite drop_nil).
    destruct (decide (k <= length f)) as [H1|H1].
    - assert (L1 : length (drop k f) = length f - k) by apply drop_length. destruct (decide (k <= length (drop k f))) as [H2|H2].
      + assert (L2 : length (drop k (drop k f)) = length f - k - k) by (rewrite drop_length; lia).
        destruct (decide (k <= length (drop k (drop k f)))) as [H3|H3]; [lia|done].
      + rewrite !decide_False by (cbn [length]; lia). done.
    - rewrite !decide_False by (cbn [length]; lia). done.
  Qed.
  (** the readers of three files: without a value file the program exits, without a row or a
      column file the code is -1 and nothing is handed out; a row file with fewer numbers than
      there are values is no reason to refuse: numbers never read are compared *)
  Theorem C99_three_files (RT : repr T) k forgiving counter fr fc fv : 0 < k -> 0 < sz RT -> length fv < itW ->
    read_bin_COO3 RT k forgiving fr fc None = Abort /\ read_bin_COO3_generic RT k forgiving counter fr fc None = Abort /\
    read_bin_COO3 RT k forgiving None fc (Some fv) = Ok ((-1)%Z, None) /\ read_bin_COO3_generic RT k forgiving counter None fc (Some fv) = Ok ((-1)%Z, None) /\
    (forall f, length fv / sz RT * k <= length f -> read_bin_COO3 RT k forgiving (Some f) None (Some fv) = Ok ((-1)%Z, None)) /\
    (forall f, length f / k < length fv / sz RT -> read_bin_COO3 RT k forgiving (Some f) fc (Some fv) = Undef Uninit) /\
    (forall f c, length fv < sz RT -> read_bin_COO3_generic RT k forgiving (Some c) (Some f) None (Some fv) = Ok ((-1)%Z, None)).
  Proof.
    intros Hk Hs Hv. split; [done|]. split; [done|].
    assert (Hsize : div_ (wrap (length fv)) (sz RT) = Ok (length fv / sz RT)) by (rewrite div_ok by done; unfold wrap; by rewrite Nat.mod_small).
    unfold read_bin_COO3, read_bin_COO3_generic, get_file_size. cbn [mbind outcome_bind]. rewrite Hsize. cbn [mbind outcome_bind].
    split; [done|]. split; [done|].
    set (n := length fv / sz RT) in *. assert (Hki : 0 < sz (index_repr k)) by done. split; [|split].
    - intros f Hf. destruct (fread_items_spec (index_repr k) n f Hki) as (l & f' & E & Hl & _ & _). rewrite E. cbv beta iota zeta.
      assert (Hln : length l = n). { rewrite Hl. apply Nat.min_l. apply Nat.div_le_lower_bound; [lia|]. change (sz (index_repr k)) with k. lia. }
      rewrite Hln, Nat.sub_diag. unfold new_arr. cbn [replicate]. rewrite app_nil_r.
      destruct (max_loop_spec l) as (m & Hm & _). rewrite <- Hln, Hm. done.
    - intros f Hf. destruct (fread_items_spec (index_repr k) n f Hki) as (l & f' & E & Hl & _ & _). rewrite E. cbv beta iota zeta.
      change (sz (index_repr k)) with k in Hl. rewrite Nat.min_r in Hl by lia.
      assert (Hmax : max_loop (full l ++ new_arr (n - length l)) n = Undef Uninit); [|by rewrite Hmax].
      unfold max_loop, for_range. rewrite Nat.sub_0_r.
      assert (G : forall d lo m, length l < lo + d -> lo <= length l -> lo + d = n ->
        for_n d lo (fun i m => v ← aget (full l ++ new_arr (n - length l)) i; Ok (if m <? v then v else m)) m = Undef Uninit).
      { induction d as [|d IH]; intros lo m H1 H2 H3; [lia|]. cbn [for_n]. unfold aget.
        destruct (decide (lo = length l)) as [->|Hne].
        - rewrite lookup_app_r by (by rewrite full_length). rewrite full_length, Nat.sub_diag. unfold new_arr.
          destruct (n - length l) as [|j] eqn:Ej; [lia|]. done.
        - rewrite lookup_app_l by (rewrite full_length; lia). destruct (lookup_lt_is_Some_2 l lo) as [v Hv']; [lia|].
          unfold full. rewrite list_lookup_fmap, Hv'. cbn [fmap option_fmap option_map mbind outcome_bind]. apply IH; lia. }
      apply G; lia.
    - intros f c Hlt. assert (Hn0 : n = 0) by (subst n; by apply Nat.div_small). rewrite Hn0. done.
  Qed.
  (** read_COO: a name with neither ending is refused *)
  Theorem C99_name {R} (name : bytes) (bin mm : outcome (Z * R)) (none : R) :
    ~ ends_in (str ".bin") name -> ~ ends_in (str ".mtx") name -> read_COO name bin mm none = Ok ((-1)%Z, none).
  Proof.
    intros H1 H2. assert (G : forall suf, ~ ends_in suf name -> string_ends_with name suf = false).
    { intros suf Hn. destruct (string_ends_with name suf) eqn:E; [|done]. destruct Hn. unfold string_ends_with in E. apply andb_true_iff in E as [_ E]. apply str_eqb_spec in E.
      exists (take (length name - length suf) name). rewrite <- E at 2. by rewrite take_drop. }
    unfold read_COO. by rewrite !G.
  Qed.
End mm.
Example C99_three_files_ex : 0 < sz ex_RT /\ length [1; 2; 3; 4] < @itW ex_W16 /\
  @read_bin_COO3 (nat * nat) ex_W16 ex_RT 1 false (Some [7; 8]) None (Some [1; 2; 3; 4]) = Ok ((-1)%Z, None) /\
  @read_bin_COO3 (nat * nat) ex_W16 ex_RT 1 false (Some [7]) None (Some [1; 2; 3; 4]) = Undef Uninit.
Proof. split; [exact (proj1 ex_storable)|]. split; [cbn; lia|]. split; vm_compute; done. Qed.

(** ** Tools: exit codes and files *)
(** Whatever the arguments and the files are, as long as the run ends through its return
    statement: *)
(** one2zero changes no file but those ending in .zero; without arguments none, code 1 *)
Theorem C99_one2zero `{Widths} k args F c F' : one2zero k args F = Ok (c, F') -> same_but (ends_in (str ".zero")) F F' /\ (args = [] -> c = 1%Z /\ F' = F).
Proof. unfold one2zero. destruct args as [|a args]; [intros [= <- <-]; split; [apply same_but_refl|done]|]. intros Hr. split; [by eapply one2zero_frame|done]. Qed.
Theorem C99_double2float {D S} (RD : repr D) (RS : repr S) (conv : D -> S) args F c F' : double2float RD RS conv args F = Ok (c, F') ->
  same_but (ends_in (str ".float")) F F' /\ (args = [] -> c = 1%Z /\ F' = F).
Proof. unfold double2float. destruct args as [|a args]; [intros [= <- <-]; split; [apply same_but_refl|done]|]. intros Hr. split; [by eapply d2f_frame|done]. Qed.
Theorem C99_no_arguments `{Widths} {T} (RT : repr T) k scan_g (print_f : T -> bytes) reader fuel {D S} (RD : repr D) (RS : repr S) (conv : D -> S) F :
  one2zero k [] F = Ok (1%Z, F) /\ double2float RD RS conv [] F = Ok (1%Z, F) /\ sort_tool RT k scan_g print_f reader fuel [] F = Ok (1%Z, F).
Proof. done. Qed.
Theorem C99_permute `{Widths} k invperm forgiving rows cols perm F c F' : permute_tool k invperm forgiving rows cols perm F = Ok (c, F') ->
  same_but (ends_in (str ".permuted")) F F'.
Proof. apply permute_frame. Qed.
Section tools.
  Context {T : Type} `{Widths} (RT : repr T) (k : nat) (scan_g : bytes -> option T * bytes) (print_f : T -> bytes)
    (reader : option bytes -> option bytes -> option bytes -> outcome (Z * option (rawcoo T))).
  (** these four change nothing unless their exit code is 0 *)
  Theorem C99_convert_blocked rows cols vals sizes out F c F' : convert_blocked RT k reader rows cols vals sizes out F = Ok (c, F') ->
    (c = 0%Z /\ exists f, F' = <[out := f]> F) \/ (c = 1%Z /\ F' = F).
  Proof. apply convert_blocked_frame. Qed.
  Theorem C99_convert rows cols vals out mode F c F' : convert RT k print_f reader rows cols vals out mode F = Ok (c, F') ->
    (c = 0%Z /\ same_but (fun n => ends_in (str ".mtx") n \/ ends_in (str ".bin") n) F F') \/ (c = 1%Z /\ F' = F).
  Proof. apply convert_frame. Qed.
  (** a mode that is none of the three is refused *)
  Theorem C99_convert_mode rows cols vals out mode F : mode <> str "bin" -> mode <> str "mtx" -> mode <> str "all" ->
    convert RT k print_f reader rows cols vals out mode F = Ok (1%Z, F).
  Proof.
    intros H1 H2 H3. unfold convert. cbv zeta. assert (G : forall s, mode <> s -> str_eqb mode s = false).
    { intros s Hs. destruct (str_eqb mode s) eqn:E; [|done]. by apply str_eqb_spec in E. }
    by rewrite !G.
  Qed.
  Theorem C99_sort fuel args F c F' : sort_tool RT k scan_g print_f reader fuel args F = Ok (c, F') ->
    (c = 0%Z /\ same_but (ends_in (str ".sorted")) F F') \/ (c = 1%Z /\ F' = F).
  Proof. apply sort_frame. Qed.
  (** more than five arguments are refused; so is a Matrix Market file the reader refuses *)
  Theorem C99_sort_arguments fuel r c v b1 b2 bs F : sort_tool RT k scan_g print_f reader fuel (r :: c :: v :: b1 :: b2 :: bs) F = Ok (1%Z, F).
  Proof. done. Qed.
  Theorem C99_sort_refused fuel m c A F : read_mm_COO scan_g fuel (F !! m) = Ok (c, A) -> c <> 0%Z ->
    sort_tool RT k scan_g print_f reader fuel [m] F = Ok (1%Z, F).
  Proof.
    intros E Hc. unfold sort_tool. rewrite E. cbn [mbind outcome_bind]. destruct (C99_mm_codes _ _ _ _ _ E) as [[? _]|[Hl _]]; [done|]. by rewrite (proj2 (Z.ltb_lt c 0)) by lia.
  Qed.
  Theorem C99_expanded rows cols vals sizes out F c F' : expanded RT k reader rows cols vals sizes out F = Ok (c, F') ->
    (c = 0%Z /\ same_but (fun n => exists m, ends_in (str ".exp" ++ print_dec m) n) F F') \/ (c = 1%Z /\ F' = F).
  Proof. apply expanded_frame. Qed.
  (** prepare: when it fails, nothing but its two temporary files *)
  Theorem C99_prepare rows cols vals perm sizes out F c F' : prepare RT k reader rows cols vals perm sizes out F = Ok (c, F') ->
    same_but made_by_prepare F F' /\ (c = 1%Z -> same_but (fun n => n = TMPROWS \/ n = TMPCOLS) F F').
  Proof. apply prepare_frame. Qed.
End tools.

(** ** Examples *)
Example C99_ex_mm : read_mm_COO (H := ex_W16) (fun s => (Some 1, s)) 9 (Some (str "%%MatrixMarket matrix coordinate complex general" ++ [10] ++ str "1 1 1")) = Ok ((-3)%Z, None) /\
  read_mm_COO (H := ex_W16) (fun s => (Some 1, s)) 9 (Some (str "%%MatrixMarket matrix coordinate real general" ++ [10] ++ str "% no size" ++ [10])) = Ok ((-4)%Z, None) /\
  read_mm_COO (H := ex_W16) (fun s => (Some 1, s)) 9 (Some (str "%MatrixMarket matrix coordinate real general" ++ [10])) = Ok ((-2)%Z, None).
Proof. vm_compute. done. Qed.
(** one2zero on a file with a 0 in it: exit code 1, and the file made before it stays *)
Example C99_ex_one2zero : let F : fs := <[str "a" := [1; 2]]> (<[str "b" := [0]]> ∅) in
  one2zero (H := ex_W16) 1 [str "a"; str "b"] F = Ok (1%Z, <[str "a.zero" := [0; 1]]> F).
Proof. vm_compute. done. Qed.
