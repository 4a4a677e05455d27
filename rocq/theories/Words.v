(** Words.v: machine-word helpers: src/common.cpp:105-184 and
    include/utils.h:13-107,175-194.  Words are [N] with explicit wrap. *)
From Verif Require Export Base.
From Coq Require Export NArith ZArith.

Definition w64 (n : N) : N := (n mod 2 ^ 64)%N.
Definition w32 (n : N) : N := (n mod 2 ^ 32)%N.

(** next_power_of_two (src/common.cpp:105-116), uint64_t *)
Definition next_power_of_two (n : N) : N :=
  let n := w64 (n + (2 ^ 64 - 1)) in            (* --n *)
  let n := N.lor n (N.shiftr n 1) in
  let n := N.lor n (N.shiftr n 2) in
  let n := N.lor n (N.shiftr n 4) in
  let n := N.lor n (N.shiftr n 8) in
  let n := N.lor n (N.shiftr n 16) in
  let n := N.lor n (N.shiftr n 32) in
  w64 (n + 1).                                  (* ++n *)

(** one turn of the loop of highest_bit_set: [if (v & b[i]) { v >>= S[i]; r |= S[i]; }] *)
Definition hbs_step (b s : N) (vr : N * N) : N * N :=
  if (N.land vr.1 b =? 0)%N then vr else (N.shiftr vr.1 s, N.lor vr.2 s).

(** highest_bit_set(uint64_t) (src/common.cpp:123-138); the loop runs from i = 5 down to 0 *)
Definition highest_bit_set64 (v : N) : N :=
  (foldl (fun vr bs => hbs_step bs.1 bs.2 vr) (v, 0)
    [(0xFFFFFFFF00000000, 32); (0xFFFF0000, 16); (0xFF00, 8); (0xF0, 4); (0xC, 2); (0x2, 1)]).2%N.
(** highest_bit_set(unsigned int) (src/common.cpp:156-173) *)
Definition highest_bit_set32 (v : N) : N :=
  (foldl (fun vr bs => hbs_step bs.1 bs.2 vr) (v, 0)
    [(0xFFFF0000, 16); (0xFF00, 8); (0xF0, 4); (0xC, 2); (0x2, 1)]).2%N.
(** highest_bit_set(int64_t) (src/common.cpp:140-149) *)
Definition highest_bit_set_i64 (v : Z) : Z :=
  if (v <? 0)%Z then (-1)%Z else Z.of_N (highest_bit_set64 (Z.to_N v)).
(** highest_bit_set(int) (src/common.cpp:175-184) *)
Definition highest_bit_set_int (v : Z) : Z :=
  if (v <? 0)%Z then (-1)%Z else Z.of_N (highest_bit_set32 (Z.to_N v)).

(** [x = (x | (x << s)) & b] on uint32_t (include/utils.h:183-191) *)
Definition spread_step (s b x : N) : N := N.land (N.lor x (w32 (N.shiftl x s))) b.
Definition spread (x : N) : N :=
  spread_step 1 0x55555555 (spread_step 2 0x33333333 (spread_step 4 0x0F0F0F0F (spread_step 8 0x00FF00FF x))).
(** bit_interleave (include/utils.h:175-194) on uint32_t: the cast back to IT
    (line 193) is the identity for a 32-bit or wider IT. *)
Definition bit_interleave (row col : N) : N :=
  N.lor (spread (w32 row)) (w32 (N.shiftl (spread (w32 col)) 1)).

(** [1 << k] in type int, k of type uint32_t; 1 << 31 is INT_MIN (implementation
    behaviour), larger counts are undefined *)
Definition shl1 (k : N) : outcome Z :=
  (if k <? 31 then Ok (2 ^ Z.of_N k)%Z
   else if k =? 31 then Ok (- 2 ^ 31)%Z else Undef BadShift)%N.

(** params.h:54-59 *)
Definition L2SIZE : N := (256 * 1024)%N.
Definition SLACKNESS : Z := 8%Z.
Definition dec32 (n : N) : N := w32 (n + (2 ^ 32 - 1)).
Definition inc32 (n : N) : N := w32 (n + 1).

(** pick_block_size (include/utils.h:13-107) for IT = uint32_t.  [logbeta] stands for the
    value of static_cast<IT>(ceil(log2(sqrt(sqrt(m*n))))) + 2 (lines 97-98), a
    double computation: it is an arbitrary parameter here.  rowhighbits and
    colhighbits are kept only where they steer a loop. *)
Definition pick_block_size (fuel : nat) (logbeta m n val_size : N) (workers : Z) : outcome N :=
  let ispar := (1 <? workers)%Z in
  let rowbits := highest_bit_set32 (w32 (next_power_of_two m)) in
  let colbits := highest_bit_set32 (w32 (next_power_of_two n)) in
  sizereq ←
    (if ispar then
       sr ← shl1 rowbits; sc ← shl1 colbits;
       Ok (((SLACKNESS * workers <? sr) && (SLACKNESS * workers <? sc))%Z)
     else Ok ((1 <? rowbits) && (1 <? colbits))%N);
  if negb sizereq then Ok 0%N else
  let rowlow := dec32 rowbits in
  let collow := dec32 colbits in
  let maxbits := highest_bit_set32 (2 ^ 32 - 1)%N in
  let rowhigh := w32 (rowbits + (2 ^ 32 - rowlow))%N in
  '(rowhigh, rowlow) ←
    (if ispar then
       while_ fuel (fun '(hi, lo) => s ← shl1 hi; Ok (s <? SLACKNESS * workers)%Z)
                   (fun '(hi, lo) => Ok (inc32 hi, dec32 lo)) (rowhigh, rowlow)
     else Ok (rowhigh, rowlow));
  sy ← shl1 rowlow;
  '(_, rowlow) ← while_ fuel (fun '(yL2, lo) => Ok (L2SIZE <? yL2)%N)
                   (fun '(yL2, lo) => Ok (yL2 / 2, dec32 lo)%N)
                   (w32 (Z.to_N (sy mod 2 ^ 64) * val_size), rowlow);
  sx ← shl1 collow;
  '(_, collow) ← while_ fuel (fun '(xL2, lo) => Ok (L2SIZE <? xL2)%N)
                   (fun '(xL2, lo) => Ok (xL2 / 2, dec32 lo)%N)
                   (w32 (Z.to_N (sx mod 2 ^ 64) * val_size), collow);
  '(rowlow, collow) ← while_ fuel (fun '(r, c) => Ok (maxbits <? w32 (r + c))%N)
                   (fun '(r, c) => Ok (if c <? r then (dec32 r, c) else (r, dec32 c))%N)
                   (rowlow, collow);
  rowlow ← while_ fuel (fun r => Ok (collow <? r)%N) (fun r => Ok (dec32 r)) rowlow;
  collow ← while_ fuel (fun c => Ok (rowlow <? c)%N) (fun c => Ok (dec32 c)) collow;
  _ ← assert_ (collow =? rowlow)%N;
  s ← shl1 rowlow;
  if (logbeta <? rowlow)%N then
    s' ← shl1 logbeta; Ok (w32 (Z.to_N ((s' - 1) mod 2 ^ 32) + 1))
  else Ok (w32 (Z.to_N ((s - 1) mod 2 ^ 32) + 1)).
