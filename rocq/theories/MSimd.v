(** The accelerated SHA-256 code: hashes/src/sha256/crypto/x86_shani.rs, arm_sha2.rs, sse41.rs, avx2.rs, and the choice between them
    and the portable code in hashes/src/sha256/crypto/mod.rs:306-476.  The processor's vector instructions are modelled from the
    manufacturers' published pseudo-code (Intel intrinsics guide, ARM architecture reference manual); the programs are lists of
    instructions transcribed line by line from the source.  Nested calls are flattened through the register "_".  A pointer read or
    write outside the slice it comes from, a read of a variable that was not assigned and an instruction the processor does not
    have (all undefined behaviour) are [Panic]. *)
From Coq Require Import String.
From Verif Require Import Base MDec MHash MSha2.
Local Open Scope N_scope.

(** * 128-bit vectors *)
(** __m128i and uint32x4_t: four 32-bit lanes, [l0] the least significant *)
Record v4 (A : Type) := V { l0 : A; l1 : A; l2 : A; l3 : A }.
Arguments V {A}. Arguments l0 {A}. Arguments l1 {A}. Arguments l2 {A}. Arguments l3 {A}.
Definition vec := v4 N.
Definition lanes {A} (v : v4 A) : list A := [l0 v; l1 v; l2 v; l3 v].
Definition lane {A} (v : v4 A) (i : N) : A :=
  if i =? 0 then l0 v else if i =? 1 then l1 v else if i =? 2 then l2 v else l3 v.
(** the sixteen bytes of a vector in memory, and back *)
Definition vec_bytes (v : vec) : bytes := flat_map (le_bytes 4) (lanes v).
Definition vec_of (b : bytes) : vec :=
  V (le_val (takeN 4 b)) (le_val (takeN 4 (dropN 4 b))) (le_val (takeN 4 (dropN 8 b))) (le_val (takeN 4 (dropN 12 b))).
Definition add32 (a b : N) : N := (a + b) mod 2 ^ 32.
(** rotate right and the functions of the SHA instructions *)
Definition ror32 (k x : N) : N := N.lor (N.shiftr x k) (N.shiftl x (32 - k) mod 2 ^ 32).
Definition hw_ch (x y z : N) : N := N.lxor (N.land x y) (N.land (N.lxor x (2 ^ 32 - 1)) z).
Definition hw_maj (x y z : N) : N := N.lxor (N.lxor (N.land x y) (N.land x z)) (N.land y z).
Definition hw_S0 (x : N) : N := N.lxor (N.lxor (ror32 2 x) (ror32 13 x)) (ror32 22 x).
Definition hw_S1 (x : N) : N := N.lxor (N.lxor (ror32 6 x) (ror32 11 x)) (ror32 25 x).
Definition hw_s0 (x : N) : N := N.lxor (N.lxor (ror32 7 x) (ror32 18 x)) (N.shiftr x 3).
Definition hw_s1 (x : N) : N := N.lxor (N.lxor (ror32 17 x) (ror32 19 x)) (N.shiftr x 10).

(** * Intel instructions (x86_shani.rs:7-18) *)
(** _mm_add_epi32, and vaddq_u32 *)
Definition mm_add_epi32 (a b : vec) : vec := V (add32 (l0 a) (l0 b)) (add32 (l1 a) (l1 b)) (add32 (l2 a) (l2 b)) (add32 (l3 a) (l3 b)).
(** _mm_set_epi64x *)
Definition mm_set_epi64x (hi lo : N) : vec := V (lo mod 2 ^ 32) (lo / 2 ^ 32) (hi mod 2 ^ 32) (hi / 2 ^ 32).
(** _mm_shuffle_epi32: two bits of the immediate choose each lane *)
Definition mm_shuffle_epi32 {A} (a : v4 A) (imm : N) : v4 A :=
  V (lane a (imm mod 4)) (lane a (imm / 4 mod 4)) (lane a (imm / 16 mod 4)) (lane a (imm / 64 mod 4)).
(** _mm_shuffle_epi8: each byte of the mask chooses a byte, or zero when its top bit is set *)
Definition mm_shuffle_epi8 (a mask : vec) : vec :=
  vec_of (map (fun m => if 128 <=? m then 0 else nth (N.to_nat (m mod 16)) (vec_bytes a) 0) (vec_bytes mask)).
(** _mm_alignr_epi8: the sixteen bytes from byte [imm] of [b] followed by [a] *)
Definition mm_alignr_epi8 (a b : vec) (imm : N) : vec := vec_of (takeN 16 (dropN imm (vec_bytes b ++ vec_bytes a ++ repeat 0 16))).
(** _mm_blend_epi16: bit i of the immediate takes the i-th 16-bit half from [b] *)
Definition blend_word (a b imm : N) (i : N) : N :=
  (if N.testbit imm (2 * i) then b else a) mod 2 ^ 16 + 2 ^ 16 * ((if N.testbit imm (2 * i + 1) then b else a) / 2 ^ 16).
Definition mm_blend_epi16 (a b : vec) (imm : N) : vec :=
  V (blend_word (l0 a) (l0 b) imm 0) (blend_word (l1 a) (l1 b) imm 1) (blend_word (l2 a) (l2 b) imm 2) (blend_word (l3 a) (l3 b) imm 3).
(** one round as the manuals write it: the new first and fifth words from a, b, c, d, e, f, g, h and the word-plus-constant *)
Definition hw_t (e f g h wk : N) : N := add32 (add32 (add32 (hw_ch e f g) (hw_S1 e)) wk) h.
Definition hw_a (a b c e f g h wk : N) : N := add32 (add32 (hw_t e f g h wk) (hw_maj a b c)) (hw_S0 a).
Definition hw_e (d e f g h wk : N) : N := add32 (hw_t e f g h wk) d.
(** _mm_sha256rnds2_epu32: two rounds; [a] holds C, D, G, H, [b] holds A, B, E, F from the top lane down *)
Definition mm_sha256rnds2_epu32 (a b k : vec) : vec :=
  let A0 := l3 b in let B0 := l2 b in let C0 := l3 a in let D0 := l2 a in
  let E0 := l1 b in let F0 := l0 b in let G0 := l1 a in let H0 := l0 a in
  let A1 := hw_a A0 B0 C0 E0 F0 G0 H0 (l0 k) in
  let E1 := hw_e D0 E0 F0 G0 H0 (l0 k) in
  let A2 := hw_a A1 A0 B0 E1 E0 F0 G0 (l1 k) in
  let E2 := hw_e C0 E1 E0 F0 G0 (l1 k) in
  V E1 E2 A1 A2.
(** _mm_sha256msg1_epu32 *)
Definition mm_sha256msg1_epu32 (a b : vec) : vec :=
  V (add32 (l0 a) (hw_s0 (l1 a))) (add32 (l1 a) (hw_s0 (l2 a))) (add32 (l2 a) (hw_s0 (l3 a))) (add32 (l3 a) (hw_s0 (l0 b))).
(** _mm_sha256msg2_epu32 *)
Definition mm_sha256msg2_epu32 (a b : vec) : vec :=
  let w16 := add32 (l0 a) (hw_s1 (l2 b)) in
  let w17 := add32 (l1 a) (hw_s1 (l3 b)) in
  V w16 w17 (add32 (l2 a) (hw_s1 w16)) (add32 (l3 a) (hw_s1 w17)).

(** * ARM instructions (arm_sha2.rs:10-13) *)
(** vreinterpretq_u32_u8(vrev32q_u8(vreinterpretq_u8_u32(a))): the bytes of each lane reversed *)
Definition bswap32 (x : N) : N := le_val (rev (le_bytes 4 x)).
Definition vrev32q_u8 (a : vec) : vec := V (bswap32 (l0 a)) (bswap32 (l1 a)) (bswap32 (l2 a)) (bswap32 (l3 a)).
(** SHA256hash of the manual: one step on [X] (a, b, c, d) and [Y] (e, f, g, h) followed by ROL(Y:X, 32) *)
Definition sha256hash_step (xy : vec * vec) (wk : N) : vec * vec :=
  let '(X, Y) := xy in
  let t := add32 (add32 (add32 (l3 Y) (hw_S1 (l0 Y))) (hw_ch (l0 Y) (l1 Y) (l2 Y))) wk in
  let x3 := add32 t (l3 X) in
  let y3 := add32 (add32 t (hw_S0 (l0 X))) (hw_maj (l0 X) (l1 X) (l2 X)) in
  (V y3 (l0 X) (l1 X) (l2 X), V x3 (l0 Y) (l1 Y) (l2 Y)).
Definition sha256hash (X Y w : vec) : vec * vec := fold_left sha256hash_step (lanes w) (X, Y).
(** vsha256hq_u32(hash_abcd, hash_efgh, wk) and vsha256h2q_u32(hash_efgh, hash_abcd, wk) *)
Definition vsha256hq_u32 (abcd efgh wk : vec) : vec := fst (sha256hash abcd efgh wk).
Definition vsha256h2q_u32 (efgh abcd wk : vec) : vec := snd (sha256hash abcd efgh wk).
(** vsha256su0q_u32(w0_3, w4_7) *)
Definition vsha256su0q_u32 (a b : vec) : vec :=
  V (add32 (hw_s0 (l1 a)) (l0 a)) (add32 (hw_s0 (l2 a)) (l1 a)) (add32 (hw_s0 (l3 a)) (l2 a)) (add32 (hw_s0 (l0 b)) (l3 a)).
(** vsha256su1q_u32(tw0_3, w8_11, w12_15) *)
Definition vsha256su1q_u32 (x n m : vec) : vec :=
  let r0 := add32 (add32 (hw_s1 (l2 m)) (l0 x)) (l1 n) in
  let r1 := add32 (add32 (hw_s1 (l3 m)) (l1 x)) (l2 n) in
  V r0 r1 (add32 (add32 (hw_s1 r0) (l2 x)) (l3 n)) (add32 (add32 (hw_s1 r1) (l3 x)) (l0 m)).

(** * Programs *)
Definition reg := string.
Inductive ins :=
  | Mov (d a : reg)
  | LoadIn (d : reg) (k : nat) (off : N)             (** 16 bytes of the [k]-th byte slice from byte [off] *)
  | LoadT (d : reg) (t : list N) (off : nat)         (** four words of a constant table *)
  | LoadSt (d : reg) (off : nat)                     (** four words of the state *)
  | Set64 (d : reg) (hi lo : N)
  | Add (d a b : reg)
  | Shuf32 (d a : reg) (imm : N)
  | Shuf8 (d a m : reg)
  | Alignr (d a b : reg) (imm : N)
  | Blend16 (d a b : reg) (imm : N)
  | Rnds2 (d a b k : reg)
  | Msg1 (d a b : reg)
  | Msg2 (d a b : reg)
  | Rev32 (d a : reg)
  | ShaH (d a b k : reg)
  | ShaH2 (d a b k : reg)
  | Su0 (d a b : reg)
  | Su1 (d a b c : reg).
(** the local variables, the last assignment first *)
Definition env (A : Type) := list (reg * v4 A).
Fixpoint get {A} (r : reg) (e : env A) : option (v4 A) :=
  match e with [] => None | (n, v) :: e' => if String.eqb r n then Some v else get r e' end.
(** _mm_loadu_si128(slice.as_ptr().add(off)) and vld1q_u32 of bytes *)
Definition load_bytes (b : bytes) (off : N) : rust vec :=
  if off + 16 <=? lenN b then Ret (vec_of (takeN 16 (dropN off b))) else Panic.
(** the same of words *)
Definition load_words (t : list N) (off : nat) : rust vec :=
  match skipn off t with a :: b :: c :: d :: _ => Ret (V a b c d) | _ => Panic end.
Definition rd (r : reg) (e : env N) : rust vec := match get r e with Some v => Ret v | None => Panic end.
Section Exec.
  (** the byte slices and the state words the program reads *)
  Variable ins_mem : list bytes.
  Variable state : list N.
  Definition op1 (f : vec -> vec) (a : reg) (e : env N) : rust vec := rbind (rd a e) (fun x => Ret (f x)).
  Definition op2 (f : vec -> vec -> vec) (a b : reg) (e : env N) : rust vec :=
    rbind (rd a e) (fun x => rbind (rd b e) (fun y => Ret (f x y))).
  Definition op3 (f : vec -> vec -> vec -> vec) (a b c : reg) (e : env N) : rust vec :=
    rbind (rd a e) (fun x => rbind (rd b e) (fun y => rbind (rd c e) (fun z => Ret (f x y z)))).
  Definition exec (i : ins) (e : env N) : rust (env N) :=
    let set d (r : rust vec) := rbind r (fun v => Ret ((d, v) :: e)) in
    match i with
    | Mov d a => set d (rd a e)
    | LoadIn d k off => set d (match nth_error ins_mem k with Some b => load_bytes b off | None => Panic end)
    | LoadT d t off => set d (load_words t off)
    | LoadSt d off => set d (load_words state off)
    | Set64 d hi lo => set d (Ret (mm_set_epi64x hi lo))
    | Add d a b => set d (op2 mm_add_epi32 a b e)
    | Shuf32 d a imm => set d (op1 (fun x => mm_shuffle_epi32 x imm) a e)
    | Shuf8 d a m => set d (op2 mm_shuffle_epi8 a m e)
    | Alignr d a b imm => set d (op2 (fun x y => mm_alignr_epi8 x y imm) a b e)
    | Blend16 d a b imm => set d (op2 (fun x y => mm_blend_epi16 x y imm) a b e)
    | Rnds2 d a b k => set d (op3 mm_sha256rnds2_epu32 a b k e)
    | Msg1 d a b => set d (op2 mm_sha256msg1_epu32 a b e)
    | Msg2 d a b => set d (op2 mm_sha256msg2_epu32 a b e)
    | Rev32 d a => set d (op1 vrev32q_u8 a e)
    | ShaH d a b k => set d (op3 vsha256hq_u32 a b k e)
    | ShaH2 d a b k => set d (op3 vsha256h2q_u32 a b k e)
    | Su0 d a b => set d (op2 vsha256su0q_u32 a b e)
    | Su1 d a b c => set d (op3 vsha256su1q_u32 a b c e)
    end.
  Fixpoint exec_all (p : list ins) (e : env N) : rust (env N) :=
    match p with [] => Ret e | i :: p' => rbind (exec i e) (exec_all p') end.
End Exec.
(** stores at the end of a program: the output array, the offset and the register *)
Inductive store := St (k : nat) (off : N) (r : reg).
Fixpoint upd_nth {A} (k : nat) (x : A) (l : list A) : list A :=
  match l, k with [], _ => [] | _ :: l', O => x :: l' | y :: l', S k' => y :: upd_nth k' x l' end.
(** _mm_storeu_si128 and vst1q_u8 into [outs] *)
Definition store_one (s : store) (e : env N) (outs : list bytes) : rust (list bytes) :=
  match s with St k off r =>
    rbind (rd r e) (fun v =>
    match nth_error outs k with
    | Some o => if off + 16 <=? lenN o then Ret (upd_nth k (takeN off o ++ vec_bytes v ++ dropN (off + 16) o) outs) else Panic
    | None => Panic
    end)
  end.
Fixpoint store_all (ss : list store) (e : env N) (outs : list bytes) : rust (list bytes) :=
  match ss with [] => Ret outs | s :: ss' => rbind (store_one s e outs) (store_all ss' e) end.
(** the loop over the blocks: [while block_offset < blocks.len()] (x86_shani.rs:54-55, 264; arm_sha2.rs:57-58, 200); [fuel] is more
    than the number of passes *)
Fixpoint block_loop (fuel : nat) (body : list ins) (blocks : bytes) (block_offset : N) (e : env N) : rust (env N) :=
  match fuel with
  | O => Panic
  | S f =>
      if block_offset <? lenN blocks then
        rbind (exec_all [dropN block_offset blocks] [] body e) (fun e => block_loop f body blocks (block_offset + 64) e)
      else Ret e
  end.
(** process_blocks of x86_shani.rs:22-277 and arm_sha2.rs:17-206: the code before the loop, the loop, the code after it, and the store
    of two vectors into the state (x86_shani.rs:275-276, arm_sha2.rs:204-205) *)
Definition simd_process_blocks (pre body post : list ins) (r0 r1 : reg) (state : list N) (blocks : bytes) : rust (list N) :=
  rbind (exec_all [] state pre []) (fun e =>
  rbind (block_loop (S (List.length blocks)) body blocks 0 e) (fun e =>
  rbind (exec_all [] state post e) (fun e =>
  rbind (rd r0 e) (fun a => rbind (rd r1 e) (fun b => Ret (lanes a ++ lanes b)))))).
(** sha256d_64_2way *)
Definition simd_2way (p : list ins) (ss : list store) (outs inputs : list bytes) : rust (list bytes) :=
  rbind (exec_all inputs [] p []) (fun e => store_all ss e outs).

Local Open Scope string_scope.
(** * x86 SHA extensions *)
(** x86_shani.rs:32-52 *)
Definition ni_pre : list ins := [
  Set64 "MASK" 0x0c0d0e0f08090a0b 0x0405060700010203; LoadSt "tmp" 0; LoadSt "state1" 4; Shuf32 "tmp" "tmp" 0xB1;
  Shuf32 "state1" "state1" 0x1B; Alignr "state0" "tmp" "state1" 8; Blend16 "state1" "state1" "tmp" 0xF0].
(** the loop body, x86_shani.rs:56-262 *)
Definition ni_body : list ins := [
  Mov "abef_save" "state0"; Mov "cdgh_save" "state1"; LoadIn "msg" 0 0; Shuf8 "msg0" "msg" "MASK";
  Set64 "_" 0xE9B5DBA5B5C0FBCF 0x71374491428A2F98; Add "msg" "msg0" "_"; Rnds2 "state1" "state1" "state0" "msg"; Shuf32 "msg" "msg" 0x0E;
  Rnds2 "state0" "state0" "state1" "msg"; LoadIn "msg1" 0 16; Shuf8 "msg1" "msg1" "MASK"; Set64 "_" 0xAB1C5ED5923F82A4 0x59F111F13956C25B;
  Add "msg" "msg1" "_"; Rnds2 "state1" "state1" "state0" "msg"; Shuf32 "msg" "msg" 0x0E; Rnds2 "state0" "state0" "state1" "msg";
  Msg1 "msg0" "msg0" "msg1"; LoadIn "msg2" 0 32; Shuf8 "msg2" "msg2" "MASK"; Set64 "_" 0x550C7DC3243185BE 0x12835B01D807AA98;
  Add "msg" "msg2" "_"; Rnds2 "state1" "state1" "state0" "msg"; Shuf32 "msg" "msg" 0x0E; Rnds2 "state0" "state0" "state1" "msg";
  Msg1 "msg1" "msg1" "msg2"; LoadIn "msg3" 0 48; Shuf8 "msg3" "msg3" "MASK"; Set64 "_" 0xC19BF1749BDC06A7 0x80DEB1FE72BE5D74;
  Add "msg" "msg3" "_"; Rnds2 "state1" "state1" "state0" "msg"; Alignr "tmp" "msg3" "msg2" 4; Add "msg0" "msg0" "tmp";
  Msg2 "msg0" "msg0" "msg3"; Shuf32 "msg" "msg" 0x0E; Rnds2 "state0" "state0" "state1" "msg"; Msg1 "msg2" "msg2" "msg3";
  Set64 "_" 0x240CA1CC0FC19DC6 0xEFBE4786E49B69C1; Add "msg" "msg0" "_"; Rnds2 "state1" "state1" "state0" "msg";
  Alignr "tmp" "msg0" "msg3" 4; Add "msg1" "msg1" "tmp"; Msg2 "msg1" "msg1" "msg0"; Shuf32 "msg" "msg" 0x0E;
  Rnds2 "state0" "state0" "state1" "msg"; Msg1 "msg3" "msg3" "msg0"; Set64 "_" 0x76F988DA5CB0A9DC 0x4A7484AA2DE92C6F; Add "msg" "msg1" "_";
  Rnds2 "state1" "state1" "state0" "msg"; Alignr "tmp" "msg1" "msg0" 4; Add "msg2" "msg2" "tmp"; Msg2 "msg2" "msg2" "msg1";
  Shuf32 "msg" "msg" 0x0E; Rnds2 "state0" "state0" "state1" "msg"; Msg1 "msg0" "msg0" "msg1";
  Set64 "_" 0xBF597FC7B00327C8 0xA831C66D983E5152; Add "msg" "msg2" "_"; Rnds2 "state1" "state1" "state0" "msg";
  Alignr "tmp" "msg2" "msg1" 4; Add "msg3" "msg3" "tmp"; Msg2 "msg3" "msg3" "msg2"; Shuf32 "msg" "msg" 0x0E;
  Rnds2 "state0" "state0" "state1" "msg"; Msg1 "msg1" "msg1" "msg2"; Set64 "_" 0x1429296706CA6351 0xD5A79147C6E00BF3; Add "msg" "msg3" "_";
  Rnds2 "state1" "state1" "state0" "msg"; Alignr "tmp" "msg3" "msg2" 4; Add "msg0" "msg0" "tmp"; Msg2 "msg0" "msg0" "msg3";
  Shuf32 "msg" "msg" 0x0E; Rnds2 "state0" "state0" "state1" "msg"; Msg1 "msg2" "msg2" "msg3";
  Set64 "_" 0x53380D134D2C6DFC 0x2E1B213827B70A85; Add "msg" "msg0" "_"; Rnds2 "state1" "state1" "state0" "msg";
  Alignr "tmp" "msg0" "msg3" 4; Add "msg1" "msg1" "tmp"; Msg2 "msg1" "msg1" "msg0"; Shuf32 "msg" "msg" 0x0E;
  Rnds2 "state0" "state0" "state1" "msg"; Msg1 "msg3" "msg3" "msg0"; Set64 "_" 0x92722C8581C2C92E 0x766A0ABB650A7354; Add "msg" "msg1" "_";
  Rnds2 "state1" "state1" "state0" "msg"; Alignr "tmp" "msg1" "msg0" 4; Add "msg2" "msg2" "tmp"; Msg2 "msg2" "msg2" "msg1";
  Shuf32 "msg" "msg" 0x0E; Rnds2 "state0" "state0" "state1" "msg"; Msg1 "msg0" "msg0" "msg1";
  Set64 "_" 0xC76C51A3C24B8B70 0xA81A664BA2BFE8A1; Add "msg" "msg2" "_"; Rnds2 "state1" "state1" "state0" "msg";
  Alignr "tmp" "msg2" "msg1" 4; Add "msg3" "msg3" "tmp"; Msg2 "msg3" "msg3" "msg2"; Shuf32 "msg" "msg" 0x0E;
  Rnds2 "state0" "state0" "state1" "msg"; Msg1 "msg1" "msg1" "msg2"; Set64 "_" 0x106AA070F40E3585 0xD6990624D192E819; Add "msg" "msg3" "_";
  Rnds2 "state1" "state1" "state0" "msg"; Alignr "tmp" "msg3" "msg2" 4; Add "msg0" "msg0" "tmp"; Msg2 "msg0" "msg0" "msg3";
  Shuf32 "msg" "msg" 0x0E; Rnds2 "state0" "state0" "state1" "msg"; Msg1 "msg2" "msg2" "msg3";
  Set64 "_" 0x34B0BCB52748774C 0x1E376C0819A4C116; Add "msg" "msg0" "_"; Rnds2 "state1" "state1" "state0" "msg";
  Alignr "tmp" "msg0" "msg3" 4; Add "msg1" "msg1" "tmp"; Msg2 "msg1" "msg1" "msg0"; Shuf32 "msg" "msg" 0x0E;
  Rnds2 "state0" "state0" "state1" "msg"; Msg1 "msg3" "msg3" "msg0"; Set64 "_" 0x682E6FF35B9CCA4F 0x4ED8AA4A391C0CB3; Add "msg" "msg1" "_";
  Rnds2 "state1" "state1" "state0" "msg"; Alignr "tmp" "msg1" "msg0" 4; Add "msg2" "msg2" "tmp"; Msg2 "msg2" "msg2" "msg1";
  Shuf32 "msg" "msg" 0x0E; Rnds2 "state0" "state0" "state1" "msg"; Set64 "_" 0x8CC7020884C87814 0x78A5636F748F82EE; Add "msg" "msg2" "_";
  Rnds2 "state1" "state1" "state0" "msg"; Alignr "tmp" "msg2" "msg1" 4; Add "msg3" "msg3" "tmp"; Msg2 "msg3" "msg3" "msg2";
  Shuf32 "msg" "msg" 0x0E; Rnds2 "state0" "state0" "state1" "msg"; Set64 "_" 0xC67178F2BEF9A3F7 0xA4506CEB90BEFFFA; Add "msg" "msg3" "_";
  Rnds2 "state1" "state1" "state0" "msg"; Shuf32 "msg" "msg" 0x0E; Rnds2 "state0" "state0" "state1" "msg";
  Add "state0" "state0" "abef_save"; Add "state1" "state1" "cdgh_save"].
(** x86_shani.rs:267-270 *)
Definition ni_post : list ins := [
  Shuf32 "tmp" "state0" 0x1B; Shuf32 "state1" "state1" 0xB1; Blend16 "state0" "tmp" "state1" 0xF0; Alignr "state1" "state1" "tmp" 8].
(** x86_shani.rs:22-277 *)
Definition ni_process_blocks : list N -> bytes -> rust (list N) := simd_process_blocks ni_pre ni_body ni_post "state0" "state1".
(** x86_shani.rs:284 *)
Definition ni_K : list N := [
  0x428A2F98; 0x71374491; 0xB5C0FBCF; 0xE9B5DBA5; 0x3956C25B; 0x59F111F1; 0x923F82A4; 0xAB1C5ED5;
  0xD807AA98; 0x12835B01; 0x243185BE; 0x550C7DC3; 0x72BE5D74; 0x80DEB1FE; 0x9BDC06A7; 0xC19BF174;
  0xE49B69C1; 0xEFBE4786; 0x0FC19DC6; 0x240CA1CC; 0x2DE92C6F; 0x4A7484AA; 0x5CB0A9DC; 0x76F988DA;
  0x983E5152; 0xA831C66D; 0xB00327C8; 0xBF597FC7; 0xC6E00BF3; 0xD5A79147; 0x06CA6351; 0x14292967;
  0x27B70A85; 0x2E1B2138; 0x4D2C6DFC; 0x53380D13; 0x650A7354; 0x766A0ABB; 0x81C2C92E; 0x92722C85;
  0xA2BFE8A1; 0xA81A664B; 0xC24B8B70; 0xC76C51A3; 0xD192E819; 0xD6990624; 0xF40E3585; 0x106AA070;
  0x19A4C116; 0x1E376C08; 0x2748774C; 0x34B0BCB5; 0x391C0CB3; 0x4ED8AA4A; 0x5B9CCA4F; 0x682E6FF3;
  0x748F82EE; 0x78A5636F; 0x84C87814; 0x8CC70208; 0x90BEFFFA; 0xA4506CEB; 0xBEF9A3F7; 0xC67178F2].
(** x86_shani.rs:305 *)
Definition ni_MIDS : list N := [
  0xc28a2f98; 0x71374491; 0xb5c0fbcf; 0xe9b5dba5; 0x3956c25b; 0x59f111f1; 0x923f82a4; 0xab1c5ed5;
  0xd807aa98; 0x12835b01; 0x243185be; 0x550c7dc3; 0x72be5d74; 0x80deb1fe; 0x9bdc06a7; 0xc19bf374;
  0x649b69c1; 0xf0fe4786; 0x0fe1edc6; 0x240cf254; 0x4fe9346f; 0x6cc984be; 0x61b9411e; 0x16f988fa;
  0xf2c65152; 0xa88e5a6d; 0xb019fc65; 0xb9d99ec7; 0x9a1231c3; 0xe70eeaa0; 0xfdb1232b; 0xc7353eb0;
  0x3069bad5; 0xcb976d5f; 0x5a0f118f; 0xdc1eeefd; 0x0a35b689; 0xde0b7a04; 0x58f4ca9d; 0xe15d5b16;
  0x007f3e86; 0x37088980; 0xa507ea32; 0x6fab9537; 0x17406110; 0x0d8cd6f1; 0xcdaa3b6d; 0xc0bbbe37;
  0x83613bda; 0xdb48a363; 0x0b02e931; 0x6fd15ca7; 0x521afaca; 0x31338431; 0x6ed41a95; 0x6d437890;
  0xc39c91f2; 0x9eccabbd; 0xb5c9a0e6; 0x532fb63c; 0xd2c741c6; 0x07237ea3; 0xa4954b68; 0x4c191d76].
(** x86_shani.rs:329 *)
Definition ni_FINS : list N := [
  0x5807aa98; 0x12835b01; 0x243185be; 0x550c7dc3; 0x80000000; 0x00000000; 0x00000000; 0x00000000;
  0x72be5d74; 0x80deb1fe; 0x9bdc06a7; 0xc19bf274].
(** x86_shani.rs:336 *)
Definition ni_FINAL : list N := [
  0x80000000; 0; 0; 0; 0; 0; 0; 0x100].
(** sha256d_64_2way, x86_shani.rs:339-1117 *)
Definition ni_2way : list ins := [
  Set64 "MASK" 0x0c0d0e0f08090a0b 0x0405060700010203; Set64 "init0" 0x6a09e667bb67ae85 0x510e527f9b05688c;
  Set64 "init1" 0x3c6ef372a54ff53a 0x1f83d9ab5be0cd19; Mov "state0_a" "init0"; Mov "state0_b" "init0"; Mov "state1_a" "init1";
  Mov "state1_b" "init1"; LoadT "k" ni_K 0; LoadIn "msg_a" 0 0; LoadIn "msg_b" 1 0; Shuf8 "msg0_a" "msg_a" "MASK";
  Shuf8 "msg0_b" "msg_b" "MASK"; Add "msg_a" "msg0_a" "k"; Add "msg_b" "msg0_b" "k"; Rnds2 "state1_a" "state1_a" "state0_a" "msg_a";
  Rnds2 "state1_b" "state1_b" "state0_b" "msg_b"; Shuf32 "msg_a" "msg_a" 0x0E; Shuf32 "msg_b" "msg_b" 0x0E;
  Rnds2 "state0_a" "state0_a" "state1_a" "msg_a"; Rnds2 "state0_b" "state0_b" "state1_b" "msg_b"; LoadT "k" ni_K 4; LoadIn "msg_a" 0 16;
  LoadIn "msg_b" 1 16; Shuf8 "msg1_a" "msg_a" "MASK"; Shuf8 "msg1_b" "msg_b" "MASK"; Add "msg_a" "msg1_a" "k"; Add "msg_b" "msg1_b" "k";
  Rnds2 "state1_a" "state1_a" "state0_a" "msg_a"; Rnds2 "state1_b" "state1_b" "state0_b" "msg_b"; Shuf32 "msg_a" "msg_a" 0x0E;
  Shuf32 "msg_b" "msg_b" 0x0E; Rnds2 "state0_a" "state0_a" "state1_a" "msg_a"; Rnds2 "state0_b" "state0_b" "state1_b" "msg_b";
  Msg1 "msg0_a" "msg0_a" "msg1_a"; Msg1 "msg0_b" "msg0_b" "msg1_b"; LoadT "k" ni_K 8; LoadIn "msg_a" 0 32; LoadIn "msg_b" 1 32;
  Shuf8 "msg2_a" "msg_a" "MASK"; Shuf8 "msg2_b" "msg_b" "MASK"; Add "msg_a" "msg2_a" "k"; Add "msg_b" "msg2_b" "k";
  Rnds2 "state1_a" "state1_a" "state0_a" "msg_a"; Rnds2 "state1_b" "state1_b" "state0_b" "msg_b"; Shuf32 "msg_a" "msg_a" 0x0E;
  Shuf32 "msg_b" "msg_b" 0x0E; Rnds2 "state0_a" "state0_a" "state1_a" "msg_a"; Rnds2 "state0_b" "state0_b" "state1_b" "msg_b";
  Msg1 "msg1_a" "msg1_a" "msg2_a"; Msg1 "msg1_b" "msg1_b" "msg2_b"; LoadT "k" ni_K 12; LoadIn "msg_a" 0 48; LoadIn "msg_b" 1 48;
  Shuf8 "msg3_a" "msg_a" "MASK"; Shuf8 "msg3_b" "msg_b" "MASK"; Add "msg_a" "msg3_a" "k"; Add "msg_b" "msg3_b" "k";
  Rnds2 "state1_a" "state1_a" "state0_a" "msg_a"; Rnds2 "state1_b" "state1_b" "state0_b" "msg_b"; Alignr "tmp_a" "msg3_a" "msg2_a" 4;
  Alignr "tmp_b" "msg3_b" "msg2_b" 4; Add "msg0_a" "msg0_a" "tmp_a"; Add "msg0_b" "msg0_b" "tmp_b"; Msg2 "msg0_a" "msg0_a" "msg3_a";
  Msg2 "msg0_b" "msg0_b" "msg3_b"; Shuf32 "msg_a" "msg_a" 0x0E; Shuf32 "msg_b" "msg_b" 0x0E;
  Rnds2 "state0_a" "state0_a" "state1_a" "msg_a"; Rnds2 "state0_b" "state0_b" "state1_b" "msg_b"; Msg1 "msg2_a" "msg2_a" "msg3_a";
  Msg1 "msg2_b" "msg2_b" "msg3_b"; LoadT "k" ni_K 16; Add "msg_a" "msg0_a" "k"; Add "msg_b" "msg0_b" "k";
  Rnds2 "state1_a" "state1_a" "state0_a" "msg_a"; Rnds2 "state1_b" "state1_b" "state0_b" "msg_b"; Alignr "tmp_a" "msg0_a" "msg3_a" 4;
  Alignr "tmp_b" "msg0_b" "msg3_b" 4; Add "msg1_a" "msg1_a" "tmp_a"; Add "msg1_b" "msg1_b" "tmp_b"; Msg2 "msg1_a" "msg1_a" "msg0_a";
  Msg2 "msg1_b" "msg1_b" "msg0_b"; Shuf32 "msg_a" "msg_a" 0x0E; Shuf32 "msg_b" "msg_b" 0x0E;
  Rnds2 "state0_a" "state0_a" "state1_a" "msg_a"; Rnds2 "state0_b" "state0_b" "state1_b" "msg_b"; Msg1 "msg3_a" "msg3_a" "msg0_a";
  Msg1 "msg3_b" "msg3_b" "msg0_b"; LoadT "k" ni_K 20; Add "msg_a" "msg1_a" "k"; Add "msg_b" "msg1_b" "k";
  Rnds2 "state1_a" "state1_a" "state0_a" "msg_a"; Rnds2 "state1_b" "state1_b" "state0_b" "msg_b"; Alignr "tmp_a" "msg1_a" "msg0_a" 4;
  Alignr "tmp_b" "msg1_b" "msg0_b" 4; Add "msg2_a" "msg2_a" "tmp_a"; Add "msg2_b" "msg2_b" "tmp_b"; Msg2 "msg2_a" "msg2_a" "msg1_a";
  Msg2 "msg2_b" "msg2_b" "msg1_b"; Shuf32 "msg_a" "msg_a" 0x0E; Shuf32 "msg_b" "msg_b" 0x0E;
  Rnds2 "state0_a" "state0_a" "state1_a" "msg_a"; Rnds2 "state0_b" "state0_b" "state1_b" "msg_b"; Msg1 "msg0_a" "msg0_a" "msg1_a";
  Msg1 "msg0_b" "msg0_b" "msg1_b"; LoadT "k" ni_K 24; Add "msg_a" "msg2_a" "k"; Add "msg_b" "msg2_b" "k";
  Rnds2 "state1_a" "state1_a" "state0_a" "msg_a"; Rnds2 "state1_b" "state1_b" "state0_b" "msg_b"; Alignr "tmp_a" "msg2_a" "msg1_a" 4;
  Alignr "tmp_b" "msg2_b" "msg1_b" 4; Add "msg3_a" "msg3_a" "tmp_a"; Add "msg3_b" "msg3_b" "tmp_b"; Msg2 "msg3_a" "msg3_a" "msg2_a";
  Msg2 "msg3_b" "msg3_b" "msg2_b"; Shuf32 "msg_a" "msg_a" 0x0E; Shuf32 "msg_b" "msg_b" 0x0E;
  Rnds2 "state0_a" "state0_a" "state1_a" "msg_a"; Rnds2 "state0_b" "state0_b" "state1_b" "msg_b"; Msg1 "msg1_a" "msg1_a" "msg2_a";
  Msg1 "msg1_b" "msg1_b" "msg2_b"; LoadT "k" ni_K 28; Add "msg_a" "msg3_a" "k"; Add "msg_b" "msg3_b" "k";
  Rnds2 "state1_a" "state1_a" "state0_a" "msg_a"; Rnds2 "state1_b" "state1_b" "state0_b" "msg_b"; Alignr "tmp_a" "msg3_a" "msg2_a" 4;
  Alignr "tmp_b" "msg3_b" "msg2_b" 4; Add "msg0_a" "msg0_a" "tmp_a"; Add "msg0_b" "msg0_b" "tmp_b"; Msg2 "msg0_a" "msg0_a" "msg3_a";
  Msg2 "msg0_b" "msg0_b" "msg3_b"; Shuf32 "msg_a" "msg_a" 0x0E; Shuf32 "msg_b" "msg_b" 0x0E;
  Rnds2 "state0_a" "state0_a" "state1_a" "msg_a"; Rnds2 "state0_b" "state0_b" "state1_b" "msg_b"; Msg1 "msg2_a" "msg2_a" "msg3_a";
  Msg1 "msg2_b" "msg2_b" "msg3_b"; LoadT "k" ni_K 32; Add "msg_a" "msg0_a" "k"; Add "msg_b" "msg0_b" "k";
  Rnds2 "state1_a" "state1_a" "state0_a" "msg_a"; Rnds2 "state1_b" "state1_b" "state0_b" "msg_b"; Alignr "tmp_a" "msg0_a" "msg3_a" 4;
  Alignr "tmp_b" "msg0_b" "msg3_b" 4; Add "msg1_a" "msg1_a" "tmp_a"; Add "msg1_b" "msg1_b" "tmp_b"; Msg2 "msg1_a" "msg1_a" "msg0_a";
  Msg2 "msg1_b" "msg1_b" "msg0_b"; Shuf32 "msg_a" "msg_a" 0x0E; Shuf32 "msg_b" "msg_b" 0x0E;
  Rnds2 "state0_a" "state0_a" "state1_a" "msg_a"; Rnds2 "state0_b" "state0_b" "state1_b" "msg_b"; Msg1 "msg3_a" "msg3_a" "msg0_a";
  Msg1 "msg3_b" "msg3_b" "msg0_b"; LoadT "k" ni_K 36; Add "msg_a" "msg1_a" "k"; Add "msg_b" "msg1_b" "k";
  Rnds2 "state1_a" "state1_a" "state0_a" "msg_a"; Rnds2 "state1_b" "state1_b" "state0_b" "msg_b"; Alignr "tmp_a" "msg1_a" "msg0_a" 4;
  Alignr "tmp_b" "msg1_b" "msg0_b" 4; Add "msg2_a" "msg2_a" "tmp_a"; Add "msg2_b" "msg2_b" "tmp_b"; Msg2 "msg2_a" "msg2_a" "msg1_a";
  Msg2 "msg2_b" "msg2_b" "msg1_b"; Shuf32 "msg_a" "msg_a" 0x0E; Shuf32 "msg_b" "msg_b" 0x0E;
  Rnds2 "state0_a" "state0_a" "state1_a" "msg_a"; Rnds2 "state0_b" "state0_b" "state1_b" "msg_b"; Msg1 "msg0_a" "msg0_a" "msg1_a";
  Msg1 "msg0_b" "msg0_b" "msg1_b"; LoadT "k" ni_K 40; Add "msg_a" "msg2_a" "k"; Add "msg_b" "msg2_b" "k";
  Rnds2 "state1_a" "state1_a" "state0_a" "msg_a"; Rnds2 "state1_b" "state1_b" "state0_b" "msg_b"; Alignr "tmp_a" "msg2_a" "msg1_a" 4;
  Alignr "tmp_b" "msg2_b" "msg1_b" 4; Add "msg3_a" "msg3_a" "tmp_a"; Add "msg3_b" "msg3_b" "tmp_b"; Msg2 "msg3_a" "msg3_a" "msg2_a";
  Msg2 "msg3_b" "msg3_b" "msg2_b"; Shuf32 "msg_a" "msg_a" 0x0E; Shuf32 "msg_b" "msg_b" 0x0E;
  Rnds2 "state0_a" "state0_a" "state1_a" "msg_a"; Rnds2 "state0_b" "state0_b" "state1_b" "msg_b"; Msg1 "msg1_a" "msg1_a" "msg2_a";
  Msg1 "msg1_b" "msg1_b" "msg2_b"; LoadT "k" ni_K 44; Add "msg_a" "msg3_a" "k"; Add "msg_b" "msg3_b" "k";
  Rnds2 "state1_a" "state1_a" "state0_a" "msg_a"; Rnds2 "state1_b" "state1_b" "state0_b" "msg_b"; Alignr "tmp_a" "msg3_a" "msg2_a" 4;
  Alignr "tmp_b" "msg3_b" "msg2_b" 4; Add "msg0_a" "msg0_a" "tmp_a"; Add "msg0_b" "msg0_b" "tmp_b"; Msg2 "msg0_a" "msg0_a" "msg3_a";
  Msg2 "msg0_b" "msg0_b" "msg3_b"; Shuf32 "msg_a" "msg_a" 0x0E; Shuf32 "msg_b" "msg_b" 0x0E;
  Rnds2 "state0_a" "state0_a" "state1_a" "msg_a"; Rnds2 "state0_b" "state0_b" "state1_b" "msg_b"; Msg1 "msg2_a" "msg2_a" "msg3_a";
  Msg1 "msg2_b" "msg2_b" "msg3_b"; LoadT "k" ni_K 48; Add "msg_a" "msg0_a" "k"; Add "msg_b" "msg0_b" "k";
  Rnds2 "state1_a" "state1_a" "state0_a" "msg_a"; Rnds2 "state1_b" "state1_b" "state0_b" "msg_b"; Alignr "tmp_a" "msg0_a" "msg3_a" 4;
  Alignr "tmp_b" "msg0_b" "msg3_b" 4; Add "msg1_a" "msg1_a" "tmp_a"; Add "msg1_b" "msg1_b" "tmp_b"; Msg2 "msg1_a" "msg1_a" "msg0_a";
  Msg2 "msg1_b" "msg1_b" "msg0_b"; Shuf32 "msg_a" "msg_a" 0x0E; Shuf32 "msg_b" "msg_b" 0x0E;
  Rnds2 "state0_a" "state0_a" "state1_a" "msg_a"; Rnds2 "state0_b" "state0_b" "state1_b" "msg_b"; Msg1 "msg3_a" "msg3_a" "msg0_a";
  Msg1 "msg3_b" "msg3_b" "msg0_b"; LoadT "k" ni_K 52; Add "msg_a" "msg1_a" "k"; Add "msg_b" "msg1_b" "k";
  Rnds2 "state1_a" "state1_a" "state0_a" "msg_a"; Rnds2 "state1_b" "state1_b" "state0_b" "msg_b"; Alignr "tmp_a" "msg1_a" "msg0_a" 4;
  Alignr "tmp_b" "msg1_b" "msg0_b" 4; Add "msg2_a" "msg2_a" "tmp_a"; Add "msg2_b" "msg2_b" "tmp_b"; Msg2 "msg2_a" "msg2_a" "msg1_a";
  Msg2 "msg2_b" "msg2_b" "msg1_b"; Shuf32 "msg_a" "msg_a" 0x0E; Shuf32 "msg_b" "msg_b" 0x0E;
  Rnds2 "state0_a" "state0_a" "state1_a" "msg_a"; Rnds2 "state0_b" "state0_b" "state1_b" "msg_b"; LoadT "k" ni_K 56;
  Add "msg_a" "msg2_a" "k"; Add "msg_b" "msg2_b" "k"; Rnds2 "state1_a" "state1_a" "state0_a" "msg_a";
  Rnds2 "state1_b" "state1_b" "state0_b" "msg_b"; Alignr "tmp_a" "msg2_a" "msg1_a" 4; Alignr "tmp_b" "msg2_b" "msg1_b" 4;
  Add "msg3_a" "msg3_a" "tmp_a"; Add "msg3_b" "msg3_b" "tmp_b"; Msg2 "msg3_a" "msg3_a" "msg2_a"; Msg2 "msg3_b" "msg3_b" "msg2_b";
  Shuf32 "msg_a" "msg_a" 0x0E; Shuf32 "msg_b" "msg_b" 0x0E; Rnds2 "state0_a" "state0_a" "state1_a" "msg_a";
  Rnds2 "state0_b" "state0_b" "state1_b" "msg_b"; LoadT "k" ni_K 60; Add "msg_a" "msg3_a" "k"; Add "msg_b" "msg3_b" "k";
  Rnds2 "state1_a" "state1_a" "state0_a" "msg_a"; Rnds2 "state1_b" "state1_b" "state0_b" "msg_b"; Shuf32 "msg_a" "msg_a" 0x0E;
  Shuf32 "msg_b" "msg_b" 0x0E; Rnds2 "state0_a" "state0_a" "state1_a" "msg_a"; Rnds2 "state0_b" "state0_b" "state1_b" "msg_b";
  Add "state0_a" "state0_a" "init0"; Add "state0_b" "state0_b" "init0"; Add "state1_a" "state1_a" "init1";
  Add "state1_b" "state1_b" "init1"; Mov "abef_save_a" "state0_a"; Mov "abef_save_b" "state0_b"; Mov "cdgh_save_a" "state1_a";
  Mov "cdgh_save_b" "state1_b"; LoadT "msg_a" ni_MIDS 0; Rnds2 "state1_a" "state1_a" "state0_a" "msg_a";
  Rnds2 "state1_b" "state1_b" "state0_b" "msg_a"; Shuf32 "msg_a" "msg_a" 0x0E; Rnds2 "state0_a" "state0_a" "state1_a" "msg_a";
  Rnds2 "state0_b" "state0_b" "state1_b" "msg_a"; LoadT "msg_a" ni_MIDS 4; Rnds2 "state1_a" "state1_a" "state0_a" "msg_a";
  Rnds2 "state1_b" "state1_b" "state0_b" "msg_a"; Shuf32 "msg_a" "msg_a" 0x0E; Rnds2 "state0_a" "state0_a" "state1_a" "msg_a";
  Rnds2 "state0_b" "state0_b" "state1_b" "msg_a"; LoadT "msg_a" ni_MIDS 8; Rnds2 "state1_a" "state1_a" "state0_a" "msg_a";
  Rnds2 "state1_b" "state1_b" "state0_b" "msg_a"; Shuf32 "msg_a" "msg_a" 0x0E; Rnds2 "state0_a" "state0_a" "state1_a" "msg_a";
  Rnds2 "state0_b" "state0_b" "state1_b" "msg_a"; LoadT "msg_a" ni_MIDS 12; Rnds2 "state1_a" "state1_a" "state0_a" "msg_a";
  Rnds2 "state1_b" "state1_b" "state0_b" "msg_a"; Shuf32 "msg_a" "msg_a" 0x0E; Rnds2 "state0_a" "state0_a" "state1_a" "msg_a";
  Rnds2 "state0_b" "state0_b" "state1_b" "msg_a"; LoadT "msg_a" ni_MIDS 16; Rnds2 "state1_a" "state1_a" "state0_a" "msg_a";
  Rnds2 "state1_b" "state1_b" "state0_b" "msg_a"; Shuf32 "msg_a" "msg_a" 0x0E; Rnds2 "state0_a" "state0_a" "state1_a" "msg_a";
  Rnds2 "state0_b" "state0_b" "state1_b" "msg_a"; LoadT "msg_a" ni_MIDS 20; Rnds2 "state1_a" "state1_a" "state0_a" "msg_a";
  Rnds2 "state1_b" "state1_b" "state0_b" "msg_a"; Shuf32 "msg_a" "msg_a" 0x0E; Rnds2 "state0_a" "state0_a" "state1_a" "msg_a";
  Rnds2 "state0_b" "state0_b" "state1_b" "msg_a"; LoadT "msg_a" ni_MIDS 24; Rnds2 "state1_a" "state1_a" "state0_a" "msg_a";
  Rnds2 "state1_b" "state1_b" "state0_b" "msg_a"; Shuf32 "msg_a" "msg_a" 0x0E; Rnds2 "state0_a" "state0_a" "state1_a" "msg_a";
  Rnds2 "state0_b" "state0_b" "state1_b" "msg_a"; LoadT "msg_a" ni_MIDS 28; Rnds2 "state1_a" "state1_a" "state0_a" "msg_a";
  Rnds2 "state1_b" "state1_b" "state0_b" "msg_a"; Shuf32 "msg_a" "msg_a" 0x0E; Rnds2 "state0_a" "state0_a" "state1_a" "msg_a";
  Rnds2 "state0_b" "state0_b" "state1_b" "msg_a"; LoadT "msg_a" ni_MIDS 32; Rnds2 "state1_a" "state1_a" "state0_a" "msg_a";
  Rnds2 "state1_b" "state1_b" "state0_b" "msg_a"; Shuf32 "msg_a" "msg_a" 0x0E; Rnds2 "state0_a" "state0_a" "state1_a" "msg_a";
  Rnds2 "state0_b" "state0_b" "state1_b" "msg_a"; LoadT "msg_a" ni_MIDS 36; Rnds2 "state1_a" "state1_a" "state0_a" "msg_a";
  Rnds2 "state1_b" "state1_b" "state0_b" "msg_a"; Shuf32 "msg_a" "msg_a" 0x0E; Rnds2 "state0_a" "state0_a" "state1_a" "msg_a";
  Rnds2 "state0_b" "state0_b" "state1_b" "msg_a"; LoadT "msg_a" ni_MIDS 40; Rnds2 "state1_a" "state1_a" "state0_a" "msg_a";
  Rnds2 "state1_b" "state1_b" "state0_b" "msg_a"; Shuf32 "msg_a" "msg_a" 0x0E; Rnds2 "state0_a" "state0_a" "state1_a" "msg_a";
  Rnds2 "state0_b" "state0_b" "state1_b" "msg_a"; LoadT "msg_a" ni_MIDS 44; Rnds2 "state1_a" "state1_a" "state0_a" "msg_a";
  Rnds2 "state1_b" "state1_b" "state0_b" "msg_a"; Shuf32 "msg_a" "msg_a" 0x0E; Rnds2 "state0_a" "state0_a" "state1_a" "msg_a";
  Rnds2 "state0_b" "state0_b" "state1_b" "msg_a"; LoadT "msg_a" ni_MIDS 48; Rnds2 "state1_a" "state1_a" "state0_a" "msg_a";
  Rnds2 "state1_b" "state1_b" "state0_b" "msg_a"; Shuf32 "msg_a" "msg_a" 0x0E; Rnds2 "state0_a" "state0_a" "state1_a" "msg_a";
  Rnds2 "state0_b" "state0_b" "state1_b" "msg_a"; LoadT "msg_a" ni_MIDS 52; Rnds2 "state1_a" "state1_a" "state0_a" "msg_a";
  Rnds2 "state1_b" "state1_b" "state0_b" "msg_a"; Shuf32 "msg_a" "msg_a" 0x0E; Rnds2 "state0_a" "state0_a" "state1_a" "msg_a";
  Rnds2 "state0_b" "state0_b" "state1_b" "msg_a"; LoadT "msg_a" ni_MIDS 56; Rnds2 "state1_a" "state1_a" "state0_a" "msg_a";
  Rnds2 "state1_b" "state1_b" "state0_b" "msg_a"; Shuf32 "msg_a" "msg_a" 0x0E; Rnds2 "state0_a" "state0_a" "state1_a" "msg_a";
  Rnds2 "state0_b" "state0_b" "state1_b" "msg_a"; LoadT "msg_a" ni_MIDS 60; Rnds2 "state1_a" "state1_a" "state0_a" "msg_a";
  Rnds2 "state1_b" "state1_b" "state0_b" "msg_a"; Shuf32 "msg_a" "msg_a" 0x0E; Rnds2 "state0_a" "state0_a" "state1_a" "msg_a";
  Rnds2 "state0_b" "state0_b" "state1_b" "msg_a"; Add "state0_a" "state0_a" "abef_save_a"; Add "state0_b" "state0_b" "abef_save_b";
  Add "state1_a" "state1_a" "cdgh_save_a"; Add "state1_b" "state1_b" "cdgh_save_b"; Shuf32 "tmp_a" "state0_a" 0x1B;
  Shuf32 "tmp_b" "state0_b" 0x1B; Shuf32 "state1_a" "state1_a" 0xB1; Shuf32 "state1_b" "state1_b" 0xB1;
  Blend16 "msg0_a" "tmp_a" "state1_a" 0xF0; Blend16 "msg0_b" "tmp_b" "state1_b" 0xF0; Alignr "msg1_a" "state1_a" "tmp_a" 8;
  Alignr "msg1_b" "state1_b" "tmp_b" 8; Mov "state0_a" "init0"; Mov "state0_b" "init0"; Mov "state1_a" "init1"; Mov "state1_b" "init1";
  LoadT "k" ni_K 0; Add "msg_a" "msg0_a" "k"; Add "msg_b" "msg0_b" "k"; Rnds2 "state1_a" "state1_a" "state0_a" "msg_a";
  Rnds2 "state1_b" "state1_b" "state0_b" "msg_b"; Shuf32 "msg_a" "msg_a" 0x0E; Shuf32 "msg_b" "msg_b" 0x0E;
  Rnds2 "state0_a" "state0_a" "state1_a" "msg_a"; Rnds2 "state0_b" "state0_b" "state1_b" "msg_b"; LoadT "k" ni_K 4;
  Add "msg_a" "msg1_a" "k"; Add "msg_b" "msg1_b" "k"; Rnds2 "state1_a" "state1_a" "state0_a" "msg_a";
  Rnds2 "state1_b" "state1_b" "state0_b" "msg_b"; Shuf32 "msg_a" "msg_a" 0x0E; Shuf32 "msg_b" "msg_b" 0x0E;
  Rnds2 "state0_a" "state0_a" "state1_a" "msg_a"; Rnds2 "state0_b" "state0_b" "state1_b" "msg_b"; Msg1 "msg0_a" "msg0_a" "msg1_a";
  Msg1 "msg0_b" "msg0_b" "msg1_b"; LoadT "msg2_a" ni_FINS 4; Mov "msg2_b" "msg2_a"; LoadT "msg_a" ni_FINS 0;
  Rnds2 "state1_a" "state1_a" "state0_a" "msg_a"; Rnds2 "state1_b" "state1_b" "state0_b" "msg_a"; Shuf32 "msg_a" "msg_a" 0x0E;
  Rnds2 "state0_a" "state0_a" "state1_a" "msg_a"; Rnds2 "state0_b" "state0_b" "state1_b" "msg_a"; Msg1 "msg1_a" "msg1_a" "msg2_a";
  Msg1 "msg1_b" "msg1_b" "msg2_b"; LoadT "msg3_a" ni_FINAL 4; Mov "msg3_b" "msg3_a"; LoadT "msg_a" ni_FINS 8;
  Rnds2 "state1_a" "state1_a" "state0_a" "msg_a"; Rnds2 "state1_b" "state1_b" "state0_b" "msg_a"; Alignr "tmp_a" "msg3_a" "msg2_a" 4;
  Alignr "tmp_b" "msg3_b" "msg2_b" 4; Add "msg0_a" "msg0_a" "tmp_a"; Add "msg0_b" "msg0_b" "tmp_b"; Msg2 "msg0_a" "msg0_a" "msg3_a";
  Msg2 "msg0_b" "msg0_b" "msg3_b"; Shuf32 "msg_a" "msg_a" 0x0E; Rnds2 "state0_a" "state0_a" "state1_a" "msg_a";
  Rnds2 "state0_b" "state0_b" "state1_b" "msg_a"; Msg1 "msg2_a" "msg2_a" "msg3_a"; Msg1 "msg2_b" "msg2_b" "msg3_b"; LoadT "k" ni_K 16;
  Add "msg_a" "msg0_a" "k"; Add "msg_b" "msg0_b" "k"; Rnds2 "state1_a" "state1_a" "state0_a" "msg_a";
  Rnds2 "state1_b" "state1_b" "state0_b" "msg_b"; Alignr "tmp_a" "msg0_a" "msg3_a" 4; Alignr "tmp_b" "msg0_b" "msg3_b" 4;
  Add "msg1_a" "msg1_a" "tmp_a"; Add "msg1_b" "msg1_b" "tmp_b"; Msg2 "msg1_a" "msg1_a" "msg0_a"; Msg2 "msg1_b" "msg1_b" "msg0_b";
  Shuf32 "msg_a" "msg_a" 0x0E; Shuf32 "msg_b" "msg_b" 0x0E; Rnds2 "state0_a" "state0_a" "state1_a" "msg_a";
  Rnds2 "state0_b" "state0_b" "state1_b" "msg_b"; Msg1 "msg3_a" "msg3_a" "msg0_a"; Msg1 "msg3_b" "msg3_b" "msg0_b"; LoadT "k" ni_K 20;
  Add "msg_a" "msg1_a" "k"; Add "msg_b" "msg1_b" "k"; Rnds2 "state1_a" "state1_a" "state0_a" "msg_a";
  Rnds2 "state1_b" "state1_b" "state0_b" "msg_b"; Alignr "tmp_a" "msg1_a" "msg0_a" 4; Alignr "tmp_b" "msg1_b" "msg0_b" 4;
  Add "msg2_a" "msg2_a" "tmp_a"; Add "msg2_b" "msg2_b" "tmp_b"; Msg2 "msg2_a" "msg2_a" "msg1_a"; Msg2 "msg2_b" "msg2_b" "msg1_b";
  Shuf32 "msg_a" "msg_a" 0x0E; Shuf32 "msg_b" "msg_b" 0x0E; Rnds2 "state0_a" "state0_a" "state1_a" "msg_a";
  Rnds2 "state0_b" "state0_b" "state1_b" "msg_b"; Msg1 "msg0_a" "msg0_a" "msg1_a"; Msg1 "msg0_b" "msg0_b" "msg1_b"; LoadT "k" ni_K 24;
  Add "msg_a" "msg2_a" "k"; Add "msg_b" "msg2_b" "k"; Rnds2 "state1_a" "state1_a" "state0_a" "msg_a";
  Rnds2 "state1_b" "state1_b" "state0_b" "msg_b"; Alignr "tmp_a" "msg2_a" "msg1_a" 4; Alignr "tmp_b" "msg2_b" "msg1_b" 4;
  Add "msg3_a" "msg3_a" "tmp_a"; Add "msg3_b" "msg3_b" "tmp_b"; Msg2 "msg3_a" "msg3_a" "msg2_a"; Msg2 "msg3_b" "msg3_b" "msg2_b";
  Shuf32 "msg_a" "msg_a" 0x0E; Shuf32 "msg_b" "msg_b" 0x0E; Rnds2 "state0_a" "state0_a" "state1_a" "msg_a";
  Rnds2 "state0_b" "state0_b" "state1_b" "msg_b"; Msg1 "msg1_a" "msg1_a" "msg2_a"; Msg1 "msg1_b" "msg1_b" "msg2_b"; LoadT "k" ni_K 28;
  Add "msg_a" "msg3_a" "k"; Add "msg_b" "msg3_b" "k"; Rnds2 "state1_a" "state1_a" "state0_a" "msg_a";
  Rnds2 "state1_b" "state1_b" "state0_b" "msg_b"; Alignr "tmp_a" "msg3_a" "msg2_a" 4; Alignr "tmp_b" "msg3_b" "msg2_b" 4;
  Add "msg0_a" "msg0_a" "tmp_a"; Add "msg0_b" "msg0_b" "tmp_b"; Msg2 "msg0_a" "msg0_a" "msg3_a"; Msg2 "msg0_b" "msg0_b" "msg3_b";
  Shuf32 "msg_a" "msg_a" 0x0E; Shuf32 "msg_b" "msg_b" 0x0E; Rnds2 "state0_a" "state0_a" "state1_a" "msg_a";
  Rnds2 "state0_b" "state0_b" "state1_b" "msg_b"; Msg1 "msg2_a" "msg2_a" "msg3_a"; Msg1 "msg2_b" "msg2_b" "msg3_b"; LoadT "k" ni_K 32;
  Add "msg_a" "msg0_a" "k"; Add "msg_b" "msg0_b" "k"; Rnds2 "state1_a" "state1_a" "state0_a" "msg_a";
  Rnds2 "state1_b" "state1_b" "state0_b" "msg_b"; Alignr "tmp_a" "msg0_a" "msg3_a" 4; Alignr "tmp_b" "msg0_b" "msg3_b" 4;
  Add "msg1_a" "msg1_a" "tmp_a"; Add "msg1_b" "msg1_b" "tmp_b"; Msg2 "msg1_a" "msg1_a" "msg0_a"; Msg2 "msg1_b" "msg1_b" "msg0_b";
  Shuf32 "msg_a" "msg_a" 0x0E; Shuf32 "msg_b" "msg_b" 0x0E; Rnds2 "state0_a" "state0_a" "state1_a" "msg_a";
  Rnds2 "state0_b" "state0_b" "state1_b" "msg_b"; Msg1 "msg3_a" "msg3_a" "msg0_a"; Msg1 "msg3_b" "msg3_b" "msg0_b"; LoadT "k" ni_K 36;
  Add "msg_a" "msg1_a" "k"; Add "msg_b" "msg1_b" "k"; Rnds2 "state1_a" "state1_a" "state0_a" "msg_a";
  Rnds2 "state1_b" "state1_b" "state0_b" "msg_b"; Alignr "tmp_a" "msg1_a" "msg0_a" 4; Alignr "tmp_b" "msg1_b" "msg0_b" 4;
  Add "msg2_a" "msg2_a" "tmp_a"; Add "msg2_b" "msg2_b" "tmp_b"; Msg2 "msg2_a" "msg2_a" "msg1_a"; Msg2 "msg2_b" "msg2_b" "msg1_b";
  Shuf32 "msg_a" "msg_a" 0x0E; Shuf32 "msg_b" "msg_b" 0x0E; Rnds2 "state0_a" "state0_a" "state1_a" "msg_a";
  Rnds2 "state0_b" "state0_b" "state1_b" "msg_b"; Msg1 "msg0_a" "msg0_a" "msg1_a"; Msg1 "msg0_b" "msg0_b" "msg1_b"; LoadT "k" ni_K 40;
  Add "msg_a" "msg2_a" "k"; Add "msg_b" "msg2_b" "k"; Rnds2 "state1_a" "state1_a" "state0_a" "msg_a";
  Rnds2 "state1_b" "state1_b" "state0_b" "msg_b"; Alignr "tmp_a" "msg2_a" "msg1_a" 4; Alignr "tmp_b" "msg2_b" "msg1_b" 4;
  Add "msg3_a" "msg3_a" "tmp_a"; Add "msg3_b" "msg3_b" "tmp_b"; Msg2 "msg3_a" "msg3_a" "msg2_a"; Msg2 "msg3_b" "msg3_b" "msg2_b";
  Shuf32 "msg_a" "msg_a" 0x0E; Shuf32 "msg_b" "msg_b" 0x0E; Rnds2 "state0_a" "state0_a" "state1_a" "msg_a";
  Rnds2 "state0_b" "state0_b" "state1_b" "msg_b"; Msg1 "msg1_a" "msg1_a" "msg2_a"; Msg1 "msg1_b" "msg1_b" "msg2_b"; LoadT "k" ni_K 44;
  Add "msg_a" "msg3_a" "k"; Add "msg_b" "msg3_b" "k"; Rnds2 "state1_a" "state1_a" "state0_a" "msg_a";
  Rnds2 "state1_b" "state1_b" "state0_b" "msg_b"; Alignr "tmp_a" "msg3_a" "msg2_a" 4; Alignr "tmp_b" "msg3_b" "msg2_b" 4;
  Add "msg0_a" "msg0_a" "tmp_a"; Add "msg0_b" "msg0_b" "tmp_b"; Msg2 "msg0_a" "msg0_a" "msg3_a"; Msg2 "msg0_b" "msg0_b" "msg3_b";
  Shuf32 "msg_a" "msg_a" 0x0E; Shuf32 "msg_b" "msg_b" 0x0E; Rnds2 "state0_a" "state0_a" "state1_a" "msg_a";
  Rnds2 "state0_b" "state0_b" "state1_b" "msg_b"; Msg1 "msg2_a" "msg2_a" "msg3_a"; Msg1 "msg2_b" "msg2_b" "msg3_b"; LoadT "k" ni_K 48;
  Add "msg_a" "msg0_a" "k"; Add "msg_b" "msg0_b" "k"; Rnds2 "state1_a" "state1_a" "state0_a" "msg_a";
  Rnds2 "state1_b" "state1_b" "state0_b" "msg_b"; Alignr "tmp_a" "msg0_a" "msg3_a" 4; Alignr "tmp_b" "msg0_b" "msg3_b" 4;
  Add "msg1_a" "msg1_a" "tmp_a"; Add "msg1_b" "msg1_b" "tmp_b"; Msg2 "msg1_a" "msg1_a" "msg0_a"; Msg2 "msg1_b" "msg1_b" "msg0_b";
  Shuf32 "msg_a" "msg_a" 0x0E; Shuf32 "msg_b" "msg_b" 0x0E; Rnds2 "state0_a" "state0_a" "state1_a" "msg_a";
  Rnds2 "state0_b" "state0_b" "state1_b" "msg_b"; Msg1 "msg3_a" "msg3_a" "msg0_a"; Msg1 "msg3_b" "msg3_b" "msg0_b"; LoadT "k" ni_K 52;
  Add "msg_a" "msg1_a" "k"; Add "msg_b" "msg1_b" "k"; Rnds2 "state1_a" "state1_a" "state0_a" "msg_a";
  Rnds2 "state1_b" "state1_b" "state0_b" "msg_b"; Alignr "tmp_a" "msg1_a" "msg0_a" 4; Alignr "tmp_b" "msg1_b" "msg0_b" 4;
  Add "msg2_a" "msg2_a" "tmp_a"; Add "msg2_b" "msg2_b" "tmp_b"; Msg2 "msg2_a" "msg2_a" "msg1_a"; Msg2 "msg2_b" "msg2_b" "msg1_b";
  Shuf32 "msg_a" "msg_a" 0x0E; Shuf32 "msg_b" "msg_b" 0x0E; Rnds2 "state0_a" "state0_a" "state1_a" "msg_a";
  Rnds2 "state0_b" "state0_b" "state1_b" "msg_b"; LoadT "k" ni_K 56; Add "msg_a" "msg2_a" "k"; Add "msg_b" "msg2_b" "k";
  Rnds2 "state1_a" "state1_a" "state0_a" "msg_a"; Rnds2 "state1_b" "state1_b" "state0_b" "msg_b"; Alignr "tmp_a" "msg2_a" "msg1_a" 4;
  Alignr "tmp_b" "msg2_b" "msg1_b" 4; Add "msg3_a" "msg3_a" "tmp_a"; Add "msg3_b" "msg3_b" "tmp_b"; Msg2 "msg3_a" "msg3_a" "msg2_a";
  Msg2 "msg3_b" "msg3_b" "msg2_b"; Shuf32 "msg_a" "msg_a" 0x0E; Shuf32 "msg_b" "msg_b" 0x0E;
  Rnds2 "state0_a" "state0_a" "state1_a" "msg_a"; Rnds2 "state0_b" "state0_b" "state1_b" "msg_b"; LoadT "k" ni_K 60;
  Add "msg_a" "msg3_a" "k"; Add "msg_b" "msg3_b" "k"; Rnds2 "state1_a" "state1_a" "state0_a" "msg_a";
  Rnds2 "state1_b" "state1_b" "state0_b" "msg_b"; Shuf32 "msg_a" "msg_a" 0x0E; Shuf32 "msg_b" "msg_b" 0x0E;
  Rnds2 "state0_a" "state0_a" "state1_a" "msg_a"; Rnds2 "state0_b" "state0_b" "state1_b" "msg_b"; Add "state0_a" "state0_a" "init0";
  Add "state0_b" "state0_b" "init0"; Add "state1_a" "state1_a" "init1"; Add "state1_b" "state1_b" "init1"; Shuf32 "tmp_a" "state0_a" 0x1B;
  Shuf32 "tmp_b" "state0_b" 0x1B; Shuf32 "state1_a" "state1_a" 0xB1; Shuf32 "state1_b" "state1_b" 0xB1;
  Blend16 "state0_a" "tmp_a" "state1_a" 0xF0; Blend16 "state0_b" "tmp_b" "state1_b" 0xF0; Alignr "state1_a" "state1_a" "tmp_a" 8;
  Alignr "state1_b" "state1_b" "tmp_b" 8; Shuf8 "_0_0" "state0_a" "MASK"; Shuf8 "_0_16" "state1_a" "MASK"; Shuf8 "_1_0" "state0_b" "MASK";
  Shuf8 "_1_16" "state1_b" "MASK"].
(** the stores, x86_shani.rs:1102-1117 *)
Definition ni_stores : list store := [St 0 0 "_0_0"; St 0 16 "_0_16"; St 1 0 "_1_0"; St 1 16 "_1_16"].
(** x86_shani.rs:281-1118 *)
Definition ni_sha256d_64_2way : list bytes -> list bytes -> rust (list bytes) := simd_2way ni_2way ni_stores.
(** * ARM SHA-2 extensions *)
(** arm_sha2.rs:28 *)
Definition arm_K0 : list N := [
  0x428A2F98; 0x71374491; 0xB5C0FBCF; 0xE9B5DBA5; 0x3956C25B; 0x59F111F1; 0x923F82A4; 0xAB1C5ED5;
  0xD807AA98; 0x12835B01; 0x243185BE; 0x550C7DC3; 0x72BE5D74; 0x80DEB1FE; 0x9BDC06A7; 0xC19BF174;
  0xE49B69C1; 0xEFBE4786; 0x0FC19DC6; 0x240CA1CC; 0x2DE92C6F; 0x4A7484AA; 0x5CB0A9DC; 0x76F988DA;
  0x983E5152; 0xA831C66D; 0xB00327C8; 0xBF597FC7; 0xC6E00BF3; 0xD5A79147; 0x06CA6351; 0x14292967;
  0x27B70A85; 0x2E1B2138; 0x4D2C6DFC; 0x53380D13; 0x650A7354; 0x766A0ABB; 0x81C2C92E; 0x92722C85;
  0xA2BFE8A1; 0xA81A664B; 0xC24B8B70; 0xC76C51A3; 0xD192E819; 0xD6990624; 0xF40E3585; 0x106AA070;
  0x19A4C116; 0x1E376C08; 0x2748774C; 0x34B0BCB5; 0x391C0CB3; 0x4ED8AA4A; 0x5B9CCA4F; 0x682E6FF3;
  0x748F82EE; 0x78A5636F; 0x84C87814; 0x8CC70208; 0x90BEFFFA; 0xA4506CEB; 0xBEF9A3F7; 0xC67178F2].
(** arm_sha2.rs:47-55 *)
Definition arm_pre : list ins := [
  LoadSt "state0" 0; LoadSt "state1" 4].
(** the loop body, arm_sha2.rs:60-198 *)
Definition arm_body : list ins := [
  Mov "abcd_save" "state0"; Mov "efgh_save" "state1"; LoadIn "msg0" 0 0; LoadIn "msg1" 0 16; LoadIn "msg2" 0 32; LoadIn "msg3" 0 48;
  Rev32 "msg0" "msg0"; Rev32 "msg1" "msg1"; Rev32 "msg2" "msg2"; Rev32 "msg3" "msg3"; LoadT "_" arm_K0 0; Add "tmp0" "msg0" "_";
  Su0 "msg0" "msg0" "msg1"; Mov "tmp2" "state0"; LoadT "_" arm_K0 4; Add "tmp1" "msg1" "_"; ShaH "state0" "state0" "state1" "tmp0";
  ShaH2 "state1" "state1" "tmp2" "tmp0"; Su1 "msg0" "msg0" "msg2" "msg3"; Su0 "msg1" "msg1" "msg2"; Mov "tmp2" "state0";
  LoadT "_" arm_K0 8; Add "tmp0" "msg2" "_"; ShaH "state0" "state0" "state1" "tmp1"; ShaH2 "state1" "state1" "tmp2" "tmp1";
  Su1 "msg1" "msg1" "msg3" "msg0"; Su0 "msg2" "msg2" "msg3"; Mov "tmp2" "state0"; LoadT "_" arm_K0 12; Add "tmp1" "msg3" "_";
  ShaH "state0" "state0" "state1" "tmp0"; ShaH2 "state1" "state1" "tmp2" "tmp0"; Su1 "msg2" "msg2" "msg0" "msg1"; Su0 "msg3" "msg3" "msg0";
  Mov "tmp2" "state0"; LoadT "_" arm_K0 16; Add "tmp0" "msg0" "_"; ShaH "state0" "state0" "state1" "tmp1";
  ShaH2 "state1" "state1" "tmp2" "tmp1"; Su1 "msg3" "msg3" "msg1" "msg2"; Su0 "msg0" "msg0" "msg1"; Mov "tmp2" "state0";
  LoadT "_" arm_K0 20; Add "tmp1" "msg1" "_"; ShaH "state0" "state0" "state1" "tmp0"; ShaH2 "state1" "state1" "tmp2" "tmp0";
  Su1 "msg0" "msg0" "msg2" "msg3"; Su0 "msg1" "msg1" "msg2"; Mov "tmp2" "state0"; LoadT "_" arm_K0 24; Add "tmp0" "msg2" "_";
  ShaH "state0" "state0" "state1" "tmp1"; ShaH2 "state1" "state1" "tmp2" "tmp1"; Su1 "msg1" "msg1" "msg3" "msg0"; Su0 "msg2" "msg2" "msg3";
  Mov "tmp2" "state0"; LoadT "_" arm_K0 28; Add "tmp1" "msg3" "_"; ShaH "state0" "state0" "state1" "tmp0";
  ShaH2 "state1" "state1" "tmp2" "tmp0"; Su1 "msg2" "msg2" "msg0" "msg1"; Su0 "msg3" "msg3" "msg0"; Mov "tmp2" "state0";
  LoadT "_" arm_K0 32; Add "tmp0" "msg0" "_"; ShaH "state0" "state0" "state1" "tmp1"; ShaH2 "state1" "state1" "tmp2" "tmp1";
  Su1 "msg3" "msg3" "msg1" "msg2"; Su0 "msg0" "msg0" "msg1"; Mov "tmp2" "state0"; LoadT "_" arm_K0 36; Add "tmp1" "msg1" "_";
  ShaH "state0" "state0" "state1" "tmp0"; ShaH2 "state1" "state1" "tmp2" "tmp0"; Su1 "msg0" "msg0" "msg2" "msg3"; Su0 "msg1" "msg1" "msg2";
  Mov "tmp2" "state0"; LoadT "_" arm_K0 40; Add "tmp0" "msg2" "_"; ShaH "state0" "state0" "state1" "tmp1";
  ShaH2 "state1" "state1" "tmp2" "tmp1"; Su1 "msg1" "msg1" "msg3" "msg0"; Su0 "msg2" "msg2" "msg3"; Mov "tmp2" "state0";
  LoadT "_" arm_K0 44; Add "tmp1" "msg3" "_"; ShaH "state0" "state0" "state1" "tmp0"; ShaH2 "state1" "state1" "tmp2" "tmp0";
  Su1 "msg2" "msg2" "msg0" "msg1"; Su0 "msg3" "msg3" "msg0"; Mov "tmp2" "state0"; LoadT "_" arm_K0 48; Add "tmp0" "msg0" "_";
  ShaH "state0" "state0" "state1" "tmp1"; ShaH2 "state1" "state1" "tmp2" "tmp1"; Su1 "msg3" "msg3" "msg1" "msg2"; Mov "tmp2" "state0";
  LoadT "_" arm_K0 52; Add "tmp1" "msg1" "_"; ShaH "state0" "state0" "state1" "tmp0"; ShaH2 "state1" "state1" "tmp2" "tmp0";
  Mov "tmp2" "state0"; LoadT "_" arm_K0 56; Add "tmp0" "msg2" "_"; ShaH "state0" "state0" "state1" "tmp1";
  ShaH2 "state1" "state1" "tmp2" "tmp1"; Mov "tmp2" "state0"; LoadT "_" arm_K0 60; Add "tmp1" "msg3" "_";
  ShaH "state0" "state0" "state1" "tmp0"; ShaH2 "state1" "state1" "tmp2" "tmp0"; Mov "tmp2" "state0";
  ShaH "state0" "state0" "state1" "tmp1"; ShaH2 "state1" "state1" "tmp2" "tmp1"; Add "state0" "state0" "abcd_save";
  Add "state1" "state1" "efgh_save"].
(** arm_sha2.rs:17-206 *)
Definition arm_process_blocks : list N -> bytes -> rust (list N) := simd_process_blocks arm_pre arm_body [] "state0" "state1".
(** arm_sha2.rs:217 *)
Definition arm_INIT : list N := [
  0x6a09e667; 0xbb67ae85; 0x3c6ef372; 0xa54ff53a; 0x510e527f; 0x9b05688c; 0x1f83d9ab; 0x5be0cd19].
(** arm_sha2.rs:224 *)
Definition arm_K : list N := [
  0x428A2F98; 0x71374491; 0xB5C0FBCF; 0xE9B5DBA5; 0x3956C25B; 0x59F111F1; 0x923F82A4; 0xAB1C5ED5;
  0xD807AA98; 0x12835B01; 0x243185BE; 0x550C7DC3; 0x72BE5D74; 0x80DEB1FE; 0x9BDC06A7; 0xC19BF174;
  0xE49B69C1; 0xEFBE4786; 0x0FC19DC6; 0x240CA1CC; 0x2DE92C6F; 0x4A7484AA; 0x5CB0A9DC; 0x76F988DA;
  0x983E5152; 0xA831C66D; 0xB00327C8; 0xBF597FC7; 0xC6E00BF3; 0xD5A79147; 0x06CA6351; 0x14292967;
  0x27B70A85; 0x2E1B2138; 0x4D2C6DFC; 0x53380D13; 0x650A7354; 0x766A0ABB; 0x81C2C92E; 0x92722C85;
  0xA2BFE8A1; 0xA81A664B; 0xC24B8B70; 0xC76C51A3; 0xD192E819; 0xD6990624; 0xF40E3585; 0x106AA070;
  0x19A4C116; 0x1E376C08; 0x2748774C; 0x34B0BCB5; 0x391C0CB3; 0x4ED8AA4A; 0x5B9CCA4F; 0x682E6FF3;
  0x748F82EE; 0x78A5636F; 0x84C87814; 0x8CC70208; 0x90BEFFFA; 0xA4506CEB; 0xBEF9A3F7; 0xC67178F2].
(** arm_sha2.rs:245 *)
Definition arm_MIDS : list N := [
  0xc28a2f98; 0x71374491; 0xb5c0fbcf; 0xe9b5dba5; 0x3956c25b; 0x59f111f1; 0x923f82a4; 0xab1c5ed5;
  0xd807aa98; 0x12835b01; 0x243185be; 0x550c7dc3; 0x72be5d74; 0x80deb1fe; 0x9bdc06a7; 0xc19bf374;
  0x649b69c1; 0xf0fe4786; 0x0fe1edc6; 0x240cf254; 0x4fe9346f; 0x6cc984be; 0x61b9411e; 0x16f988fa;
  0xf2c65152; 0xa88e5a6d; 0xb019fc65; 0xb9d99ec7; 0x9a1231c3; 0xe70eeaa0; 0xfdb1232b; 0xc7353eb0;
  0x3069bad5; 0xcb976d5f; 0x5a0f118f; 0xdc1eeefd; 0x0a35b689; 0xde0b7a04; 0x58f4ca9d; 0xe15d5b16;
  0x007f3e86; 0x37088980; 0xa507ea32; 0x6fab9537; 0x17406110; 0x0d8cd6f1; 0xcdaa3b6d; 0xc0bbbe37;
  0x83613bda; 0xdb48a363; 0x0b02e931; 0x6fd15ca7; 0x521afaca; 0x31338431; 0x6ed41a95; 0x6d437890;
  0xc39c91f2; 0x9eccabbd; 0xb5c9a0e6; 0x532fb63c; 0xd2c741c6; 0x07237ea3; 0xa4954b68; 0x4c191d76].
(** arm_sha2.rs:269 *)
Definition arm_FINS : list N := [
  0x5807aa98; 0x12835b01; 0x243185be; 0x550c7dc3; 0x80000000; 0x00000000; 0x00000000; 0x00000000;
  0x72be5d74; 0x80deb1fe; 0x9bdc06a7; 0xc19bf274].
(** arm_sha2.rs:276 *)
Definition arm_FINAL : list N := [
  0x80000000; 0; 0; 0; 0; 0; 0; 0x100].
(** sha256d_64_2way, arm_sha2.rs:278-950 *)
Definition arm_2way : list ins := [
  LoadT "state0_a" arm_INIT 0; Mov "state0_b" "state0_a"; LoadT "state1_a" arm_INIT 4; Mov "state1_b" "state1_a"; LoadIn "msg0_a" 0 0;
  LoadIn "msg1_a" 0 16; LoadIn "msg2_a" 0 32; LoadIn "msg3_a" 0 48; LoadIn "msg0_b" 1 0; LoadIn "msg1_b" 1 16; LoadIn "msg2_b" 1 32;
  LoadIn "msg3_b" 1 48; Rev32 "msg0_a" "msg0_a"; Rev32 "msg1_a" "msg1_a"; Rev32 "msg2_a" "msg2_a"; Rev32 "msg3_a" "msg3_a";
  Rev32 "msg0_b" "msg0_b"; Rev32 "msg1_b" "msg1_b"; Rev32 "msg2_b" "msg2_b"; Rev32 "msg3_b" "msg3_b"; LoadT "tmp" arm_K 0;
  Add "tmp0_a" "msg0_a" "tmp"; Add "tmp0_b" "msg0_b" "tmp"; Mov "tmp2_a" "state0_a"; Mov "tmp2_b" "state0_b";
  Su0 "msg0_a" "msg0_a" "msg1_a"; Su0 "msg0_b" "msg0_b" "msg1_b"; ShaH "state0_a" "state0_a" "state1_a" "tmp0_a";
  ShaH "state0_b" "state0_b" "state1_b" "tmp0_b"; ShaH2 "state1_a" "state1_a" "tmp2_a" "tmp0_a";
  ShaH2 "state1_b" "state1_b" "tmp2_b" "tmp0_b"; Su1 "msg0_a" "msg0_a" "msg2_a" "msg3_a"; Su1 "msg0_b" "msg0_b" "msg2_b" "msg3_b";
  LoadT "tmp" arm_K 4; Add "tmp0_a" "msg1_a" "tmp"; Add "tmp0_b" "msg1_b" "tmp"; Mov "tmp2_a" "state0_a"; Mov "tmp2_b" "state0_b";
  Su0 "msg1_a" "msg1_a" "msg2_a"; Su0 "msg1_b" "msg1_b" "msg2_b"; ShaH "state0_a" "state0_a" "state1_a" "tmp0_a";
  ShaH "state0_b" "state0_b" "state1_b" "tmp0_b"; ShaH2 "state1_a" "state1_a" "tmp2_a" "tmp0_a";
  ShaH2 "state1_b" "state1_b" "tmp2_b" "tmp0_b"; Su1 "msg1_a" "msg1_a" "msg3_a" "msg0_a"; Su1 "msg1_b" "msg1_b" "msg3_b" "msg0_b";
  LoadT "tmp" arm_K 8; Add "tmp0_a" "msg2_a" "tmp"; Add "tmp0_b" "msg2_b" "tmp"; Mov "tmp2_a" "state0_a"; Mov "tmp2_b" "state0_b";
  Su0 "msg2_a" "msg2_a" "msg3_a"; Su0 "msg2_b" "msg2_b" "msg3_b"; ShaH "state0_a" "state0_a" "state1_a" "tmp0_a";
  ShaH "state0_b" "state0_b" "state1_b" "tmp0_b"; ShaH2 "state1_a" "state1_a" "tmp2_a" "tmp0_a";
  ShaH2 "state1_b" "state1_b" "tmp2_b" "tmp0_b"; Su1 "msg2_a" "msg2_a" "msg0_a" "msg1_a"; Su1 "msg2_b" "msg2_b" "msg0_b" "msg1_b";
  LoadT "tmp" arm_K 12; Add "tmp0_a" "msg3_a" "tmp"; Add "tmp0_b" "msg3_b" "tmp"; Mov "tmp2_a" "state0_a"; Mov "tmp2_b" "state0_b";
  Su0 "msg3_a" "msg3_a" "msg0_a"; Su0 "msg3_b" "msg3_b" "msg0_b"; ShaH "state0_a" "state0_a" "state1_a" "tmp0_a";
  ShaH "state0_b" "state0_b" "state1_b" "tmp0_b"; ShaH2 "state1_a" "state1_a" "tmp2_a" "tmp0_a";
  ShaH2 "state1_b" "state1_b" "tmp2_b" "tmp0_b"; Su1 "msg3_a" "msg3_a" "msg1_a" "msg2_a"; Su1 "msg3_b" "msg3_b" "msg1_b" "msg2_b";
  LoadT "tmp" arm_K 16; Add "tmp0_a" "msg0_a" "tmp"; Add "tmp0_b" "msg0_b" "tmp"; Mov "tmp2_a" "state0_a"; Mov "tmp2_b" "state0_b";
  Su0 "msg0_a" "msg0_a" "msg1_a"; Su0 "msg0_b" "msg0_b" "msg1_b"; ShaH "state0_a" "state0_a" "state1_a" "tmp0_a";
  ShaH "state0_b" "state0_b" "state1_b" "tmp0_b"; ShaH2 "state1_a" "state1_a" "tmp2_a" "tmp0_a";
  ShaH2 "state1_b" "state1_b" "tmp2_b" "tmp0_b"; Su1 "msg0_a" "msg0_a" "msg2_a" "msg3_a"; Su1 "msg0_b" "msg0_b" "msg2_b" "msg3_b";
  LoadT "tmp" arm_K 20; Add "tmp0_a" "msg1_a" "tmp"; Add "tmp0_b" "msg1_b" "tmp"; Mov "tmp2_a" "state0_a"; Mov "tmp2_b" "state0_b";
  Su0 "msg1_a" "msg1_a" "msg2_a"; Su0 "msg1_b" "msg1_b" "msg2_b"; ShaH "state0_a" "state0_a" "state1_a" "tmp0_a";
  ShaH "state0_b" "state0_b" "state1_b" "tmp0_b"; ShaH2 "state1_a" "state1_a" "tmp2_a" "tmp0_a";
  ShaH2 "state1_b" "state1_b" "tmp2_b" "tmp0_b"; Su1 "msg1_a" "msg1_a" "msg3_a" "msg0_a"; Su1 "msg1_b" "msg1_b" "msg3_b" "msg0_b";
  LoadT "tmp" arm_K 24; Add "tmp0_a" "msg2_a" "tmp"; Add "tmp0_b" "msg2_b" "tmp"; Mov "tmp2_a" "state0_a"; Mov "tmp2_b" "state0_b";
  Su0 "msg2_a" "msg2_a" "msg3_a"; Su0 "msg2_b" "msg2_b" "msg3_b"; ShaH "state0_a" "state0_a" "state1_a" "tmp0_a";
  ShaH "state0_b" "state0_b" "state1_b" "tmp0_b"; ShaH2 "state1_a" "state1_a" "tmp2_a" "tmp0_a";
  ShaH2 "state1_b" "state1_b" "tmp2_b" "tmp0_b"; Su1 "msg2_a" "msg2_a" "msg0_a" "msg1_a"; Su1 "msg2_b" "msg2_b" "msg0_b" "msg1_b";
  LoadT "tmp" arm_K 28; Add "tmp0_a" "msg3_a" "tmp"; Add "tmp0_b" "msg3_b" "tmp"; Mov "tmp2_a" "state0_a"; Mov "tmp2_b" "state0_b";
  Su0 "msg3_a" "msg3_a" "msg0_a"; Su0 "msg3_b" "msg3_b" "msg0_b"; ShaH "state0_a" "state0_a" "state1_a" "tmp0_a";
  ShaH "state0_b" "state0_b" "state1_b" "tmp0_b"; ShaH2 "state1_a" "state1_a" "tmp2_a" "tmp0_a";
  ShaH2 "state1_b" "state1_b" "tmp2_b" "tmp0_b"; Su1 "msg3_a" "msg3_a" "msg1_a" "msg2_a"; Su1 "msg3_b" "msg3_b" "msg1_b" "msg2_b";
  LoadT "tmp" arm_K 32; Add "tmp0_a" "msg0_a" "tmp"; Add "tmp0_b" "msg0_b" "tmp"; Mov "tmp2_a" "state0_a"; Mov "tmp2_b" "state0_b";
  Su0 "msg0_a" "msg0_a" "msg1_a"; Su0 "msg0_b" "msg0_b" "msg1_b"; ShaH "state0_a" "state0_a" "state1_a" "tmp0_a";
  ShaH "state0_b" "state0_b" "state1_b" "tmp0_b"; ShaH2 "state1_a" "state1_a" "tmp2_a" "tmp0_a";
  ShaH2 "state1_b" "state1_b" "tmp2_b" "tmp0_b"; Su1 "msg0_a" "msg0_a" "msg2_a" "msg3_a"; Su1 "msg0_b" "msg0_b" "msg2_b" "msg3_b";
  LoadT "tmp" arm_K 36; Add "tmp0_a" "msg1_a" "tmp"; Add "tmp0_b" "msg1_b" "tmp"; Mov "tmp2_a" "state0_a"; Mov "tmp2_b" "state0_b";
  Su0 "msg1_a" "msg1_a" "msg2_a"; Su0 "msg1_b" "msg1_b" "msg2_b"; ShaH "state0_a" "state0_a" "state1_a" "tmp0_a";
  ShaH "state0_b" "state0_b" "state1_b" "tmp0_b"; ShaH2 "state1_a" "state1_a" "tmp2_a" "tmp0_a";
  ShaH2 "state1_b" "state1_b" "tmp2_b" "tmp0_b"; Su1 "msg1_a" "msg1_a" "msg3_a" "msg0_a"; Su1 "msg1_b" "msg1_b" "msg3_b" "msg0_b";
  LoadT "tmp" arm_K 40; Add "tmp0_a" "msg2_a" "tmp"; Add "tmp0_b" "msg2_b" "tmp"; Mov "tmp2_a" "state0_a"; Mov "tmp2_b" "state0_b";
  Su0 "msg2_a" "msg2_a" "msg3_a"; Su0 "msg2_b" "msg2_b" "msg3_b"; ShaH "state0_a" "state0_a" "state1_a" "tmp0_a";
  ShaH "state0_b" "state0_b" "state1_b" "tmp0_b"; ShaH2 "state1_a" "state1_a" "tmp2_a" "tmp0_a";
  ShaH2 "state1_b" "state1_b" "tmp2_b" "tmp0_b"; Su1 "msg2_a" "msg2_a" "msg0_a" "msg1_a"; Su1 "msg2_b" "msg2_b" "msg0_b" "msg1_b";
  LoadT "tmp" arm_K 44; Add "tmp0_a" "msg3_a" "tmp"; Add "tmp0_b" "msg3_b" "tmp"; Mov "tmp2_a" "state0_a"; Mov "tmp2_b" "state0_b";
  Su0 "msg3_a" "msg3_a" "msg0_a"; Su0 "msg3_b" "msg3_b" "msg0_b"; ShaH "state0_a" "state0_a" "state1_a" "tmp0_a";
  ShaH "state0_b" "state0_b" "state1_b" "tmp0_b"; ShaH2 "state1_a" "state1_a" "tmp2_a" "tmp0_a";
  ShaH2 "state1_b" "state1_b" "tmp2_b" "tmp0_b"; Su1 "msg3_a" "msg3_a" "msg1_a" "msg2_a"; Su1 "msg3_b" "msg3_b" "msg1_b" "msg2_b";
  LoadT "tmp" arm_K 48; Add "tmp0_a" "msg0_a" "tmp"; Add "tmp0_b" "msg0_b" "tmp"; Mov "tmp2_a" "state0_a"; Mov "tmp2_b" "state0_b";
  ShaH "state0_a" "state0_a" "state1_a" "tmp0_a"; ShaH "state0_b" "state0_b" "state1_b" "tmp0_b";
  ShaH2 "state1_a" "state1_a" "tmp2_a" "tmp0_a"; ShaH2 "state1_b" "state1_b" "tmp2_b" "tmp0_b"; LoadT "tmp" arm_K 52;
  Add "tmp0_a" "msg1_a" "tmp"; Add "tmp0_b" "msg1_b" "tmp"; Mov "tmp2_a" "state0_a"; Mov "tmp2_b" "state0_b";
  ShaH "state0_a" "state0_a" "state1_a" "tmp0_a"; ShaH "state0_b" "state0_b" "state1_b" "tmp0_b";
  ShaH2 "state1_a" "state1_a" "tmp2_a" "tmp0_a"; ShaH2 "state1_b" "state1_b" "tmp2_b" "tmp0_b"; LoadT "tmp" arm_K 56;
  Add "tmp0_a" "msg2_a" "tmp"; Add "tmp0_b" "msg2_b" "tmp"; Mov "tmp2_a" "state0_a"; Mov "tmp2_b" "state0_b";
  ShaH "state0_a" "state0_a" "state1_a" "tmp0_a"; ShaH "state0_b" "state0_b" "state1_b" "tmp0_b";
  ShaH2 "state1_a" "state1_a" "tmp2_a" "tmp0_a"; ShaH2 "state1_b" "state1_b" "tmp2_b" "tmp0_b"; LoadT "tmp" arm_K 60;
  Add "tmp0_a" "msg3_a" "tmp"; Add "tmp0_b" "msg3_b" "tmp"; Mov "tmp2_a" "state0_a"; Mov "tmp2_b" "state0_b";
  ShaH "state0_a" "state0_a" "state1_a" "tmp0_a"; ShaH "state0_b" "state0_b" "state1_b" "tmp0_b";
  ShaH2 "state1_a" "state1_a" "tmp2_a" "tmp0_a"; ShaH2 "state1_b" "state1_b" "tmp2_b" "tmp0_b"; LoadT "tmp" arm_INIT 0;
  Add "state0_a" "state0_a" "tmp"; Add "state0_b" "state0_b" "tmp"; LoadT "tmp" arm_INIT 4; Add "state1_a" "state1_a" "tmp";
  Add "state1_b" "state1_b" "tmp"; Mov "abcd_save_a" "state0_a"; Mov "abcd_save_b" "state0_b"; Mov "efgh_save_a" "state1_a";
  Mov "efgh_save_b" "state1_b"; LoadT "tmp" arm_MIDS 0; Mov "tmp2_a" "state0_a"; Mov "tmp2_b" "state0_b";
  ShaH "state0_a" "state0_a" "state1_a" "tmp"; ShaH "state0_b" "state0_b" "state1_b" "tmp"; ShaH2 "state1_a" "state1_a" "tmp2_a" "tmp";
  ShaH2 "state1_b" "state1_b" "tmp2_b" "tmp"; LoadT "tmp" arm_MIDS 4; Mov "tmp2_a" "state0_a"; Mov "tmp2_b" "state0_b";
  ShaH "state0_a" "state0_a" "state1_a" "tmp"; ShaH "state0_b" "state0_b" "state1_b" "tmp"; ShaH2 "state1_a" "state1_a" "tmp2_a" "tmp";
  ShaH2 "state1_b" "state1_b" "tmp2_b" "tmp"; LoadT "tmp" arm_MIDS 8; Mov "tmp2_a" "state0_a"; Mov "tmp2_b" "state0_b";
  ShaH "state0_a" "state0_a" "state1_a" "tmp"; ShaH "state0_b" "state0_b" "state1_b" "tmp"; ShaH2 "state1_a" "state1_a" "tmp2_a" "tmp";
  ShaH2 "state1_b" "state1_b" "tmp2_b" "tmp"; LoadT "tmp" arm_MIDS 12; Mov "tmp2_a" "state0_a"; Mov "tmp2_b" "state0_b";
  ShaH "state0_a" "state0_a" "state1_a" "tmp"; ShaH "state0_b" "state0_b" "state1_b" "tmp"; ShaH2 "state1_a" "state1_a" "tmp2_a" "tmp";
  ShaH2 "state1_b" "state1_b" "tmp2_b" "tmp"; LoadT "tmp" arm_MIDS 16; Mov "tmp2_a" "state0_a"; Mov "tmp2_b" "state0_b";
  ShaH "state0_a" "state0_a" "state1_a" "tmp"; ShaH "state0_b" "state0_b" "state1_b" "tmp"; ShaH2 "state1_a" "state1_a" "tmp2_a" "tmp";
  ShaH2 "state1_b" "state1_b" "tmp2_b" "tmp"; LoadT "tmp" arm_MIDS 20; Mov "tmp2_a" "state0_a"; Mov "tmp2_b" "state0_b";
  ShaH "state0_a" "state0_a" "state1_a" "tmp"; ShaH "state0_b" "state0_b" "state1_b" "tmp"; ShaH2 "state1_a" "state1_a" "tmp2_a" "tmp";
  ShaH2 "state1_b" "state1_b" "tmp2_b" "tmp"; LoadT "tmp" arm_MIDS 24; Mov "tmp2_a" "state0_a"; Mov "tmp2_b" "state0_b";
  ShaH "state0_a" "state0_a" "state1_a" "tmp"; ShaH "state0_b" "state0_b" "state1_b" "tmp"; ShaH2 "state1_a" "state1_a" "tmp2_a" "tmp";
  ShaH2 "state1_b" "state1_b" "tmp2_b" "tmp"; LoadT "tmp" arm_MIDS 28; Mov "tmp2_a" "state0_a"; Mov "tmp2_b" "state0_b";
  ShaH "state0_a" "state0_a" "state1_a" "tmp"; ShaH "state0_b" "state0_b" "state1_b" "tmp"; ShaH2 "state1_a" "state1_a" "tmp2_a" "tmp";
  ShaH2 "state1_b" "state1_b" "tmp2_b" "tmp"; LoadT "tmp" arm_MIDS 32; Mov "tmp2_a" "state0_a"; Mov "tmp2_b" "state0_b";
  ShaH "state0_a" "state0_a" "state1_a" "tmp"; ShaH "state0_b" "state0_b" "state1_b" "tmp"; ShaH2 "state1_a" "state1_a" "tmp2_a" "tmp";
  ShaH2 "state1_b" "state1_b" "tmp2_b" "tmp"; LoadT "tmp" arm_MIDS 36; Mov "tmp2_a" "state0_a"; Mov "tmp2_b" "state0_b";
  ShaH "state0_a" "state0_a" "state1_a" "tmp"; ShaH "state0_b" "state0_b" "state1_b" "tmp"; ShaH2 "state1_a" "state1_a" "tmp2_a" "tmp";
  ShaH2 "state1_b" "state1_b" "tmp2_b" "tmp"; LoadT "tmp" arm_MIDS 40; Mov "tmp2_a" "state0_a"; Mov "tmp2_b" "state0_b";
  ShaH "state0_a" "state0_a" "state1_a" "tmp"; ShaH "state0_b" "state0_b" "state1_b" "tmp"; ShaH2 "state1_a" "state1_a" "tmp2_a" "tmp";
  ShaH2 "state1_b" "state1_b" "tmp2_b" "tmp"; LoadT "tmp" arm_MIDS 44; Mov "tmp2_a" "state0_a"; Mov "tmp2_b" "state0_b";
  ShaH "state0_a" "state0_a" "state1_a" "tmp"; ShaH "state0_b" "state0_b" "state1_b" "tmp"; ShaH2 "state1_a" "state1_a" "tmp2_a" "tmp";
  ShaH2 "state1_b" "state1_b" "tmp2_b" "tmp"; LoadT "tmp" arm_MIDS 48; Mov "tmp2_a" "state0_a"; Mov "tmp2_b" "state0_b";
  ShaH "state0_a" "state0_a" "state1_a" "tmp"; ShaH "state0_b" "state0_b" "state1_b" "tmp"; ShaH2 "state1_a" "state1_a" "tmp2_a" "tmp";
  ShaH2 "state1_b" "state1_b" "tmp2_b" "tmp"; LoadT "tmp" arm_MIDS 52; Mov "tmp2_a" "state0_a"; Mov "tmp2_b" "state0_b";
  ShaH "state0_a" "state0_a" "state1_a" "tmp"; ShaH "state0_b" "state0_b" "state1_b" "tmp"; ShaH2 "state1_a" "state1_a" "tmp2_a" "tmp";
  ShaH2 "state1_b" "state1_b" "tmp2_b" "tmp"; LoadT "tmp" arm_MIDS 56; Mov "tmp2_a" "state0_a"; Mov "tmp2_b" "state0_b";
  ShaH "state0_a" "state0_a" "state1_a" "tmp"; ShaH "state0_b" "state0_b" "state1_b" "tmp"; ShaH2 "state1_a" "state1_a" "tmp2_a" "tmp";
  ShaH2 "state1_b" "state1_b" "tmp2_b" "tmp"; LoadT "tmp" arm_MIDS 60; Mov "tmp2_a" "state0_a"; Mov "tmp2_b" "state0_b";
  ShaH "state0_a" "state0_a" "state1_a" "tmp"; ShaH "state0_b" "state0_b" "state1_b" "tmp"; ShaH2 "state1_a" "state1_a" "tmp2_a" "tmp";
  ShaH2 "state1_b" "state1_b" "tmp2_b" "tmp"; Add "state0_a" "state0_a" "abcd_save_a"; Add "state0_b" "state0_b" "abcd_save_b";
  Add "state1_a" "state1_a" "efgh_save_a"; Add "state1_b" "state1_b" "efgh_save_b"; Mov "msg0_a" "state0_a"; Mov "msg0_b" "state0_b";
  Mov "msg1_a" "state1_a"; Mov "msg1_b" "state1_b"; LoadT "msg2_a" arm_FINAL 0; Mov "msg2_b" "msg2_a"; LoadT "msg3_a" arm_FINAL 4;
  Mov "msg3_b" "msg3_a"; LoadT "state0_a" arm_INIT 0; Mov "state0_b" "state0_a"; LoadT "state1_a" arm_INIT 4; Mov "state1_b" "state1_a";
  LoadT "tmp" arm_K 0; Add "tmp0_a" "msg0_a" "tmp"; Add "tmp0_b" "msg0_b" "tmp"; Mov "tmp2_a" "state0_a"; Mov "tmp2_b" "state0_b";
  Su0 "msg0_a" "msg0_a" "msg1_a"; Su0 "msg0_b" "msg0_b" "msg1_b"; ShaH "state0_a" "state0_a" "state1_a" "tmp0_a";
  ShaH "state0_b" "state0_b" "state1_b" "tmp0_b"; ShaH2 "state1_a" "state1_a" "tmp2_a" "tmp0_a";
  ShaH2 "state1_b" "state1_b" "tmp2_b" "tmp0_b"; Su1 "msg0_a" "msg0_a" "msg2_a" "msg3_a"; Su1 "msg0_b" "msg0_b" "msg2_b" "msg3_b";
  LoadT "tmp" arm_K 4; Add "tmp0_a" "msg1_a" "tmp"; Add "tmp0_b" "msg1_b" "tmp"; Mov "tmp2_a" "state0_a"; Mov "tmp2_b" "state0_b";
  Su0 "msg1_a" "msg1_a" "msg2_a"; Su0 "msg1_b" "msg1_b" "msg2_b"; ShaH "state0_a" "state0_a" "state1_a" "tmp0_a";
  ShaH "state0_b" "state0_b" "state1_b" "tmp0_b"; ShaH2 "state1_a" "state1_a" "tmp2_a" "tmp0_a";
  ShaH2 "state1_b" "state1_b" "tmp2_b" "tmp0_b"; Su1 "msg1_a" "msg1_a" "msg3_a" "msg0_a"; Su1 "msg1_b" "msg1_b" "msg3_b" "msg0_b";
  LoadT "tmp" arm_FINS 0; Mov "tmp2_a" "state0_a"; Mov "tmp2_b" "state0_b"; LoadT "msg2_a" arm_FINS 4; Mov "msg2_b" "msg2_a";
  ShaH "state0_a" "state0_a" "state1_a" "tmp"; ShaH "state0_b" "state0_b" "state1_b" "tmp"; ShaH2 "state1_a" "state1_a" "tmp2_a" "tmp";
  ShaH2 "state1_b" "state1_b" "tmp2_b" "tmp"; Su1 "msg2_a" "msg2_a" "msg0_a" "msg1_a"; Su1 "msg2_b" "msg2_b" "msg0_b" "msg1_b";
  LoadT "tmp" arm_FINS 8; Mov "tmp2_a" "state0_a"; Mov "tmp2_b" "state0_b"; Su0 "msg3_a" "msg3_a" "msg0_a"; Su0 "msg3_b" "msg3_b" "msg0_b";
  ShaH "state0_a" "state0_a" "state1_a" "tmp"; ShaH "state0_b" "state0_b" "state1_b" "tmp"; ShaH2 "state1_a" "state1_a" "tmp2_a" "tmp";
  ShaH2 "state1_b" "state1_b" "tmp2_b" "tmp"; Su1 "msg3_a" "msg3_a" "msg1_a" "msg2_a"; Su1 "msg3_b" "msg3_b" "msg1_b" "msg2_b";
  LoadT "tmp" arm_K 16; Add "tmp0_a" "msg0_a" "tmp"; Add "tmp0_b" "msg0_b" "tmp"; Mov "tmp2_a" "state0_a"; Mov "tmp2_b" "state0_b";
  Su0 "msg0_a" "msg0_a" "msg1_a"; Su0 "msg0_b" "msg0_b" "msg1_b"; ShaH "state0_a" "state0_a" "state1_a" "tmp0_a";
  ShaH "state0_b" "state0_b" "state1_b" "tmp0_b"; ShaH2 "state1_a" "state1_a" "tmp2_a" "tmp0_a";
  ShaH2 "state1_b" "state1_b" "tmp2_b" "tmp0_b"; Su1 "msg0_a" "msg0_a" "msg2_a" "msg3_a"; Su1 "msg0_b" "msg0_b" "msg2_b" "msg3_b";
  LoadT "tmp" arm_K 20; Add "tmp0_a" "msg1_a" "tmp"; Add "tmp0_b" "msg1_b" "tmp"; Mov "tmp2_a" "state0_a"; Mov "tmp2_b" "state0_b";
  Su0 "msg1_a" "msg1_a" "msg2_a"; Su0 "msg1_b" "msg1_b" "msg2_b"; ShaH "state0_a" "state0_a" "state1_a" "tmp0_a";
  ShaH "state0_b" "state0_b" "state1_b" "tmp0_b"; ShaH2 "state1_a" "state1_a" "tmp2_a" "tmp0_a";
  ShaH2 "state1_b" "state1_b" "tmp2_b" "tmp0_b"; Su1 "msg1_a" "msg1_a" "msg3_a" "msg0_a"; Su1 "msg1_b" "msg1_b" "msg3_b" "msg0_b";
  LoadT "tmp" arm_K 24; Add "tmp0_a" "msg2_a" "tmp"; Add "tmp0_b" "msg2_b" "tmp"; Mov "tmp2_a" "state0_a"; Mov "tmp2_b" "state0_b";
  Su0 "msg2_a" "msg2_a" "msg3_a"; Su0 "msg2_b" "msg2_b" "msg3_b"; ShaH "state0_a" "state0_a" "state1_a" "tmp0_a";
  ShaH "state0_b" "state0_b" "state1_b" "tmp0_b"; ShaH2 "state1_a" "state1_a" "tmp2_a" "tmp0_a";
  ShaH2 "state1_b" "state1_b" "tmp2_b" "tmp0_b"; Su1 "msg2_a" "msg2_a" "msg0_a" "msg1_a"; Su1 "msg2_b" "msg2_b" "msg0_b" "msg1_b";
  LoadT "tmp" arm_K 28; Add "tmp0_a" "msg3_a" "tmp"; Add "tmp0_b" "msg3_b" "tmp"; Mov "tmp2_a" "state0_a"; Mov "tmp2_b" "state0_b";
  Su0 "msg3_a" "msg3_a" "msg0_a"; Su0 "msg3_b" "msg3_b" "msg0_b"; ShaH "state0_a" "state0_a" "state1_a" "tmp0_a";
  ShaH "state0_b" "state0_b" "state1_b" "tmp0_b"; ShaH2 "state1_a" "state1_a" "tmp2_a" "tmp0_a";
  ShaH2 "state1_b" "state1_b" "tmp2_b" "tmp0_b"; Su1 "msg3_a" "msg3_a" "msg1_a" "msg2_a"; Su1 "msg3_b" "msg3_b" "msg1_b" "msg2_b";
  LoadT "tmp" arm_K 32; Add "tmp0_a" "msg0_a" "tmp"; Add "tmp0_b" "msg0_b" "tmp"; Mov "tmp2_a" "state0_a"; Mov "tmp2_b" "state0_b";
  Su0 "msg0_a" "msg0_a" "msg1_a"; Su0 "msg0_b" "msg0_b" "msg1_b"; ShaH "state0_a" "state0_a" "state1_a" "tmp0_a";
  ShaH "state0_b" "state0_b" "state1_b" "tmp0_b"; ShaH2 "state1_a" "state1_a" "tmp2_a" "tmp0_a";
  ShaH2 "state1_b" "state1_b" "tmp2_b" "tmp0_b"; Su1 "msg0_a" "msg0_a" "msg2_a" "msg3_a"; Su1 "msg0_b" "msg0_b" "msg2_b" "msg3_b";
  LoadT "tmp" arm_K 36; Add "tmp0_a" "msg1_a" "tmp"; Add "tmp0_b" "msg1_b" "tmp"; Mov "tmp2_a" "state0_a"; Mov "tmp2_b" "state0_b";
  Su0 "msg1_a" "msg1_a" "msg2_a"; Su0 "msg1_b" "msg1_b" "msg2_b"; ShaH "state0_a" "state0_a" "state1_a" "tmp0_a";
  ShaH "state0_b" "state0_b" "state1_b" "tmp0_b"; ShaH2 "state1_a" "state1_a" "tmp2_a" "tmp0_a";
  ShaH2 "state1_b" "state1_b" "tmp2_b" "tmp0_b"; Su1 "msg1_a" "msg1_a" "msg3_a" "msg0_a"; Su1 "msg1_b" "msg1_b" "msg3_b" "msg0_b";
  LoadT "tmp" arm_K 40; Add "tmp0_a" "msg2_a" "tmp"; Add "tmp0_b" "msg2_b" "tmp"; Mov "tmp2_a" "state0_a"; Mov "tmp2_b" "state0_b";
  Su0 "msg2_a" "msg2_a" "msg3_a"; Su0 "msg2_b" "msg2_b" "msg3_b"; ShaH "state0_a" "state0_a" "state1_a" "tmp0_a";
  ShaH "state0_b" "state0_b" "state1_b" "tmp0_b"; ShaH2 "state1_a" "state1_a" "tmp2_a" "tmp0_a";
  ShaH2 "state1_b" "state1_b" "tmp2_b" "tmp0_b"; Su1 "msg2_a" "msg2_a" "msg0_a" "msg1_a"; Su1 "msg2_b" "msg2_b" "msg0_b" "msg1_b";
  LoadT "tmp" arm_K 44; Add "tmp0_a" "msg3_a" "tmp"; Add "tmp0_b" "msg3_b" "tmp"; Mov "tmp2_a" "state0_a"; Mov "tmp2_b" "state0_b";
  Su0 "msg3_a" "msg3_a" "msg0_a"; Su0 "msg3_b" "msg3_b" "msg0_b"; ShaH "state0_a" "state0_a" "state1_a" "tmp0_a";
  ShaH "state0_b" "state0_b" "state1_b" "tmp0_b"; ShaH2 "state1_a" "state1_a" "tmp2_a" "tmp0_a";
  ShaH2 "state1_b" "state1_b" "tmp2_b" "tmp0_b"; Su1 "msg3_a" "msg3_a" "msg1_a" "msg2_a"; Su1 "msg3_b" "msg3_b" "msg1_b" "msg2_b";
  LoadT "tmp" arm_K 48; Add "tmp0_a" "msg0_a" "tmp"; Add "tmp0_b" "msg0_b" "tmp"; Mov "tmp2_a" "state0_a"; Mov "tmp2_b" "state0_b";
  ShaH "state0_a" "state0_a" "state1_a" "tmp0_a"; ShaH "state0_b" "state0_b" "state1_b" "tmp0_b";
  ShaH2 "state1_a" "state1_a" "tmp2_a" "tmp0_a"; ShaH2 "state1_b" "state1_b" "tmp2_b" "tmp0_b"; LoadT "tmp" arm_K 52;
  Add "tmp0_a" "msg1_a" "tmp"; Add "tmp0_b" "msg1_b" "tmp"; Mov "tmp2_a" "state0_a"; Mov "tmp2_b" "state0_b";
  ShaH "state0_a" "state0_a" "state1_a" "tmp0_a"; ShaH "state0_b" "state0_b" "state1_b" "tmp0_b";
  ShaH2 "state1_a" "state1_a" "tmp2_a" "tmp0_a"; ShaH2 "state1_b" "state1_b" "tmp2_b" "tmp0_b"; LoadT "tmp" arm_K 56;
  Add "tmp0_a" "msg2_a" "tmp"; Add "tmp0_b" "msg2_b" "tmp"; Mov "tmp2_a" "state0_a"; Mov "tmp2_b" "state0_b";
  ShaH "state0_a" "state0_a" "state1_a" "tmp0_a"; ShaH "state0_b" "state0_b" "state1_b" "tmp0_b";
  ShaH2 "state1_a" "state1_a" "tmp2_a" "tmp0_a"; ShaH2 "state1_b" "state1_b" "tmp2_b" "tmp0_b"; LoadT "tmp" arm_K 60;
  Add "tmp0_a" "msg3_a" "tmp"; Add "tmp0_b" "msg3_b" "tmp"; Mov "tmp2_a" "state0_a"; Mov "tmp2_b" "state0_b";
  ShaH "state0_a" "state0_a" "state1_a" "tmp0_a"; ShaH "state0_b" "state0_b" "state1_b" "tmp0_b";
  ShaH2 "state1_a" "state1_a" "tmp2_a" "tmp0_a"; ShaH2 "state1_b" "state1_b" "tmp2_b" "tmp0_b"; LoadT "tmp" arm_INIT 0;
  Add "state0_a" "state0_a" "tmp"; Add "state0_b" "state0_b" "tmp"; LoadT "tmp" arm_INIT 4; Add "state1_a" "state1_a" "tmp";
  Add "state1_b" "state1_b" "tmp"; Rev32 "_0_0" "state0_a"; Rev32 "_0_16" "state1_a"; Rev32 "_1_0" "state0_b"; Rev32 "_1_16" "state1_b"].
(** the stores, arm_sha2.rs:947-950 *)
Definition arm_stores : list store := [St 0 0 "_0_0"; St 0 16 "_0_16"; St 1 0 "_1_0"; St 1 16 "_1_16"].
(** arm_sha2.rs:210-951 *)
Definition arm_sha256d_64_2way : list bytes -> list bytes -> rust (list bytes) := simd_2way arm_2way arm_stores.
Local Close Scope string_scope.

(** * One message per lane: sse41.rs and avx2.rs *)
(** A vector of [n] 32-bit lanes, the least significant first: __m128i with [n] = 4 and __m256i with [n] = 8. *)
Definition wvec := list N.
Fixpoint vmap2 (f : N -> N -> N) (a b : wvec) : wvec :=
  match a, b with x :: a', y :: b' => f x y :: vmap2 f a' b' | _, _ => [] end.
(** Add, Add3, Add4, Xor, Xor3, Or, And, ShR, ShL: sse41.rs:24-62, avx2.rs:26-64 *)
Definition vAdd : wvec -> wvec -> wvec := vmap2 add32.
Definition vAdd3 (x y z : wvec) : wvec := vAdd (vAdd x y) z.
Definition vAdd4 (x y z w : wvec) : wvec := vAdd (vAdd x y) (vAdd z w).
Definition vXor : wvec -> wvec -> wvec := vmap2 N.lxor.
Definition vXor3 (x y z : wvec) : wvec := vXor (vXor x y) z.
Definition vOr : wvec -> wvec -> wvec := vmap2 N.lor.
Definition vAnd : wvec -> wvec -> wvec := vmap2 N.land.
Definition vShR (k : N) (x : wvec) : wvec := map (fun v => N.shiftr v k) x.
Definition vShL (k : N) (x : wvec) : wvec := map (fun v => N.shiftl v k mod 2 ^ 32) x.
(** Ch, Maj, Sigma0, Sigma1, sigma0, sigma1: sse41.rs:65-96, avx2.rs:67-98 *)
Definition vCh (x y z : wvec) : wvec := vXor z (vAnd x (vXor y z)).
Definition vMaj (x y z : wvec) : wvec := vOr (vAnd x y) (vAnd z (vOr x y)).
Definition vSigma0 (x : wvec) : wvec :=
  vXor3 (vOr (vShR 2 x) (vShL 30 x)) (vOr (vShR 13 x) (vShL 19 x)) (vOr (vShR 22 x) (vShL 10 x)).
Definition vSigma1 (x : wvec) : wvec :=
  vXor3 (vOr (vShR 6 x) (vShL 26 x)) (vOr (vShR 11 x) (vShL 21 x)) (vOr (vShR 25 x) (vShL 7 x)).
Definition vsigma0 (x : wvec) : wvec := vXor3 (vOr (vShR 7 x) (vShL 25 x)) (vOr (vShR 18 x) (vShL 14 x)) (vShR 3 x).
Definition vsigma1 (x : wvec) : wvec := vXor3 (vOr (vShR 17 x) (vShL 15 x)) (vOr (vShR 19 x) (vShL 13 x)) (vShR 10 x).
(** _mm_shuffle_epi8 and _mm256_shuffle_epi8, which works within each group of four lanes *)
Fixpoint shuffle8 (a mask : wvec) : wvec :=
  match a, mask with
  | a0 :: a1 :: a2 :: a3 :: a', m0 :: m1 :: m2 :: m3 :: m' =>
      lanes (mm_shuffle_epi8 (V a0 a1 a2 a3) (V m0 m1 m2 m3)) ++ shuffle8 a' m'
  | _, _ => []
  end.
(** the expressions of the rounds, and a [round!] with the variables passed as a..h (numbered 0 to 7) *)
Inductive lx := LRead (off : N) | LW (i : nat) | LK (c : N) | LAdd (a b : lx) | LAdd3 (a b c : lx) | LAdd4 (a b c d : lx) | LS0 (a : lx) | LS1 (a : lx).
(** K(k), Add(K(k), w_i), and Add(K(k), { w_i = e; w_i }) which inc2!, inc3! and inc4! also are *)
Inductive lkw := KwK (k : N) | KwW (k : N) (i : nat) | KwSet (k : N) (i : nat) (e : lx).
Inductive lins := LIns (ord : list nat) (x : lkw).
Section Lanes.
  Variable n : nat.
  Variable inputs : list bytes.
  (** K: set1 *)
  Definition vK (c : N) : wvec := repeat c n.
  (** the mask of Read4, Read8, Write4 and Write8: set_epi32 names the most significant lane first *)
  Definition vmask : wvec := concat (repeat (rev [0x0C0D0E0F; 0x08090A0B; 0x04050607; 0x00010203]) (n / 4)).
  (** Read4 sse41.rs:109-117, Read8 avx2.rs:112-127; the inputs are arrays of 64 bytes *)
  Definition vread (off : N) : wvec :=
    shuffle8 (rev (map (fun b => le_val (takeN 4 (dropN off b))) inputs)) vmask.
  Fixpoint lval (w : list wvec) (e : lx) : wvec :=
    match e with
    | LRead off => vread off
    | LW i => nth i w []
    | LK c => vK c
    | LAdd a b => vAdd (lval w a) (lval w b)
    | LAdd3 a b c => vAdd3 (lval w a) (lval w b) (lval w c)
    | LAdd4 a b c d => vAdd4 (lval w a) (lval w b) (lval w c) (lval w d)
    | LS0 a => vsigma0 (lval w a)
    | LS1 a => vsigma1 (lval w a)
    end.
  Definition lkw_step (w : list wvec) (x : lkw) : wvec * list wvec :=
    match x with
    | KwK k => (vK k, w)
    | KwW k i => (vAdd (vK k) (nth i w []), w)
    | KwSet k i e => let v := lval w e in (vAdd (vK k) v, upd_nth i v w)
    end.
  (** round!: sse41.rs:99-106, avx2.rs:101-108 *)
  Definition lround (ord : list nat) (kw : wvec) (r : list wvec) : list wvec :=
    match ord with
    | [a; b; c; d; e; f; g; h] =>
        let R i := nth i r [] in
        let t1 := vAdd4 (R h) (vSigma1 (R e)) (vCh (R e) (R f) (R g)) kw in
        let t2 := vAdd (vSigma0 (R a)) (vMaj (R a) (R b) (R c)) in
        upd_nth h (vAdd t1 t2) (upd_nth d (vAdd (R d) t1) r)
    | _ => r
    end.
  Fixpoint lrun (is : list lins) (st : list wvec * list wvec) : list wvec * list wvec :=
    match is with
    | [] => st
    | LIns ord x :: is' =>
        let '(kw, w) := lkw_step (snd st) x in
        lrun is' (lround ord kw (fst st), w)
    end.
  Fixpoint vadds (a b : list wvec) : list wvec :=
    match a, b with x :: a', y :: b' => vAdd x y :: vadds a' b' | _, _ => [] end.
  (** Write4 sse41.rs:120-126, Write8 avx2.rs:131-144: output j takes lane n - 1 - j *)
  Definition vwrite (off : N) (v : wvec) (outs : list bytes) : list bytes :=
    let v := rev (shuffle8 v vmask) in
    map (fun p => takeN off (fst p) ++ le_bytes 4 (snd p) ++ dropN (off + 4) (fst p)) (combine outs v).
  Fixpoint vwrites (off : N) (vs : list wvec) (outs : list bytes) : list bytes :=
    match vs with [] => outs | v :: vs' => vwrites (off + 4) vs' (vwrite off v outs) end.
  (** sha256d_64_4way and sha256d_64_8way: three transforms *)
  Definition d64_lanes_body (init add1 init3 out : list N) (rounds1 rounds2 rounds3 : list lins) (outs : list bytes) : list bytes :=
    let '(r1, w) := lrun rounds1 (map vK init, repeat [] 16) in
    let s := vadds r1 (map vK add1) in
    let '(r2, w) := lrun rounds2 (s, w) in
    let w := vadds s r2 ++ skipn 8 w in
    let '(r3, w) := lrun rounds3 (map vK init3, w) in
    vwrites 0 (vadds r3 (map vK out)) outs.
End Lanes.
Definition d64_lanes (n : nat) (init add1 init3 out : list N) (rounds1 rounds2 rounds3 : list lins) (outs inputs : list bytes) : list bytes :=
  d64_lanes_body n inputs init add1 init3 out rounds1 rounds2 rounds3 outs.
(** sse41.rs:133-140 *)
Definition sse_init : list N := [0x6a09e667; 0xbb67ae85; 0x3c6ef372; 0xa54ff53a; 0x510e527f; 0x9b05688c; 0x1f83d9ab; 0x5be0cd19].
(** sse41.rs:214-221 *)
Definition sse_add1 : list N := [0x6a09e667; 0xbb67ae85; 0x3c6ef372; 0xa54ff53a; 0x510e527f; 0x9b05688c; 0x1f83d9ab; 0x5be0cd19].
(** sse41.rs:311-318 *)
Definition sse_init3 : list N := [0x6a09e667; 0xbb67ae85; 0x3c6ef372; 0xa54ff53a; 0x510e527f; 0x9b05688c; 0x1f83d9ab; 0x5be0cd19].
(** sse41.rs:390-397 *)
Definition sse_out : list N := [0x6a09e667; 0xbb67ae85; 0x3c6ef372; 0xa54ff53a; 0x510e527f; 0x9b05688c; 0x1f83d9ab; 0x5be0cd19].
(** sse41.rs:146-211 *)
Definition sse_rounds1 : list lins := [
  LIns [0;1;2;3;4;5;6;7]%nat (KwSet 0x428a2f98 0 (LRead 0));
  LIns [7;0;1;2;3;4;5;6]%nat (KwSet 0x71374491 1 (LRead 4));
  LIns [6;7;0;1;2;3;4;5]%nat (KwSet 0xb5c0fbcf 2 (LRead 8));
  LIns [5;6;7;0;1;2;3;4]%nat (KwSet 0xe9b5dba5 3 (LRead 12));
  LIns [4;5;6;7;0;1;2;3]%nat (KwSet 0x3956c25b 4 (LRead 16));
  LIns [3;4;5;6;7;0;1;2]%nat (KwSet 0x59f111f1 5 (LRead 20));
  LIns [2;3;4;5;6;7;0;1]%nat (KwSet 0x923f82a4 6 (LRead 24));
  LIns [1;2;3;4;5;6;7;0]%nat (KwSet 0xab1c5ed5 7 (LRead 28));
  LIns [0;1;2;3;4;5;6;7]%nat (KwSet 0xd807aa98 8 (LRead 32));
  LIns [7;0;1;2;3;4;5;6]%nat (KwSet 0x12835b01 9 (LRead 36));
  LIns [6;7;0;1;2;3;4;5]%nat (KwSet 0x243185be 10 (LRead 40));
  LIns [5;6;7;0;1;2;3;4]%nat (KwSet 0x550c7dc3 11 (LRead 44));
  LIns [4;5;6;7;0;1;2;3]%nat (KwSet 0x72be5d74 12 (LRead 48));
  LIns [3;4;5;6;7;0;1;2]%nat (KwSet 0x80deb1fe 13 (LRead 52));
  LIns [2;3;4;5;6;7;0;1]%nat (KwSet 0x9bdc06a7 14 (LRead 56));
  LIns [1;2;3;4;5;6;7;0]%nat (KwSet 0xc19bf174 15 (LRead 60));
  LIns [0;1;2;3;4;5;6;7]%nat (KwSet 0xe49b69c1 0 (LAdd4 (LW 0) (LS1 (LW 14)) (LW 9) (LS0 (LW 1))));
  LIns [7;0;1;2;3;4;5;6]%nat (KwSet 0xefbe4786 1 (LAdd4 (LW 1) (LS1 (LW 15)) (LW 10) (LS0 (LW 2))));
  LIns [6;7;0;1;2;3;4;5]%nat (KwSet 0x0fc19dc6 2 (LAdd4 (LW 2) (LS1 (LW 0)) (LW 11) (LS0 (LW 3))));
  LIns [5;6;7;0;1;2;3;4]%nat (KwSet 0x240ca1cc 3 (LAdd4 (LW 3) (LS1 (LW 1)) (LW 12) (LS0 (LW 4))));
  LIns [4;5;6;7;0;1;2;3]%nat (KwSet 0x2de92c6f 4 (LAdd4 (LW 4) (LS1 (LW 2)) (LW 13) (LS0 (LW 5))));
  LIns [3;4;5;6;7;0;1;2]%nat (KwSet 0x4a7484aa 5 (LAdd4 (LW 5) (LS1 (LW 3)) (LW 14) (LS0 (LW 6))));
  LIns [2;3;4;5;6;7;0;1]%nat (KwSet 0x5cb0a9dc 6 (LAdd4 (LW 6) (LS1 (LW 4)) (LW 15) (LS0 (LW 7))));
  LIns [1;2;3;4;5;6;7;0]%nat (KwSet 0x76f988da 7 (LAdd4 (LW 7) (LS1 (LW 5)) (LW 0) (LS0 (LW 8))));
  LIns [0;1;2;3;4;5;6;7]%nat (KwSet 0x983e5152 8 (LAdd4 (LW 8) (LS1 (LW 6)) (LW 1) (LS0 (LW 9))));
  LIns [7;0;1;2;3;4;5;6]%nat (KwSet 0xa831c66d 9 (LAdd4 (LW 9) (LS1 (LW 7)) (LW 2) (LS0 (LW 10))));
  LIns [6;7;0;1;2;3;4;5]%nat (KwSet 0xb00327c8 10 (LAdd4 (LW 10) (LS1 (LW 8)) (LW 3) (LS0 (LW 11))));
  LIns [5;6;7;0;1;2;3;4]%nat (KwSet 0xbf597fc7 11 (LAdd4 (LW 11) (LS1 (LW 9)) (LW 4) (LS0 (LW 12))));
  LIns [4;5;6;7;0;1;2;3]%nat (KwSet 0xc6e00bf3 12 (LAdd4 (LW 12) (LS1 (LW 10)) (LW 5) (LS0 (LW 13))));
  LIns [3;4;5;6;7;0;1;2]%nat (KwSet 0xd5a79147 13 (LAdd4 (LW 13) (LS1 (LW 11)) (LW 6) (LS0 (LW 14))));
  LIns [2;3;4;5;6;7;0;1]%nat (KwSet 0x06ca6351 14 (LAdd4 (LW 14) (LS1 (LW 12)) (LW 7) (LS0 (LW 15))));
  LIns [1;2;3;4;5;6;7;0]%nat (KwSet 0x14292967 15 (LAdd4 (LW 15) (LS1 (LW 13)) (LW 8) (LS0 (LW 0))));
  LIns [0;1;2;3;4;5;6;7]%nat (KwSet 0x27b70a85 0 (LAdd4 (LW 0) (LS1 (LW 14)) (LW 9) (LS0 (LW 1))));
  LIns [7;0;1;2;3;4;5;6]%nat (KwSet 0x2e1b2138 1 (LAdd4 (LW 1) (LS1 (LW 15)) (LW 10) (LS0 (LW 2))));
  LIns [6;7;0;1;2;3;4;5]%nat (KwSet 0x4d2c6dfc 2 (LAdd4 (LW 2) (LS1 (LW 0)) (LW 11) (LS0 (LW 3))));
  LIns [5;6;7;0;1;2;3;4]%nat (KwSet 0x53380d13 3 (LAdd4 (LW 3) (LS1 (LW 1)) (LW 12) (LS0 (LW 4))));
  LIns [4;5;6;7;0;1;2;3]%nat (KwSet 0x650a7354 4 (LAdd4 (LW 4) (LS1 (LW 2)) (LW 13) (LS0 (LW 5))));
  LIns [3;4;5;6;7;0;1;2]%nat (KwSet 0x766a0abb 5 (LAdd4 (LW 5) (LS1 (LW 3)) (LW 14) (LS0 (LW 6))));
  LIns [2;3;4;5;6;7;0;1]%nat (KwSet 0x81c2c92e 6 (LAdd4 (LW 6) (LS1 (LW 4)) (LW 15) (LS0 (LW 7))));
  LIns [1;2;3;4;5;6;7;0]%nat (KwSet 0x92722c85 7 (LAdd4 (LW 7) (LS1 (LW 5)) (LW 0) (LS0 (LW 8))));
  LIns [0;1;2;3;4;5;6;7]%nat (KwSet 0xa2bfe8a1 8 (LAdd4 (LW 8) (LS1 (LW 6)) (LW 1) (LS0 (LW 9))));
  LIns [7;0;1;2;3;4;5;6]%nat (KwSet 0xa81a664b 9 (LAdd4 (LW 9) (LS1 (LW 7)) (LW 2) (LS0 (LW 10))));
  LIns [6;7;0;1;2;3;4;5]%nat (KwSet 0xc24b8b70 10 (LAdd4 (LW 10) (LS1 (LW 8)) (LW 3) (LS0 (LW 11))));
  LIns [5;6;7;0;1;2;3;4]%nat (KwSet 0xc76c51a3 11 (LAdd4 (LW 11) (LS1 (LW 9)) (LW 4) (LS0 (LW 12))));
  LIns [4;5;6;7;0;1;2;3]%nat (KwSet 0xd192e819 12 (LAdd4 (LW 12) (LS1 (LW 10)) (LW 5) (LS0 (LW 13))));
  LIns [3;4;5;6;7;0;1;2]%nat (KwSet 0xd6990624 13 (LAdd4 (LW 13) (LS1 (LW 11)) (LW 6) (LS0 (LW 14))));
  LIns [2;3;4;5;6;7;0;1]%nat (KwSet 0xf40e3585 14 (LAdd4 (LW 14) (LS1 (LW 12)) (LW 7) (LS0 (LW 15))));
  LIns [1;2;3;4;5;6;7;0]%nat (KwSet 0x106aa070 15 (LAdd4 (LW 15) (LS1 (LW 13)) (LW 8) (LS0 (LW 0))));
  LIns [0;1;2;3;4;5;6;7]%nat (KwSet 0x19a4c116 0 (LAdd4 (LW 0) (LS1 (LW 14)) (LW 9) (LS0 (LW 1))));
  LIns [7;0;1;2;3;4;5;6]%nat (KwSet 0x1e376c08 1 (LAdd4 (LW 1) (LS1 (LW 15)) (LW 10) (LS0 (LW 2))));
  LIns [6;7;0;1;2;3;4;5]%nat (KwSet 0x2748774c 2 (LAdd4 (LW 2) (LS1 (LW 0)) (LW 11) (LS0 (LW 3))));
  LIns [5;6;7;0;1;2;3;4]%nat (KwSet 0x34b0bcb5 3 (LAdd4 (LW 3) (LS1 (LW 1)) (LW 12) (LS0 (LW 4))));
  LIns [4;5;6;7;0;1;2;3]%nat (KwSet 0x391c0cb3 4 (LAdd4 (LW 4) (LS1 (LW 2)) (LW 13) (LS0 (LW 5))));
  LIns [3;4;5;6;7;0;1;2]%nat (KwSet 0x4ed8aa4a 5 (LAdd4 (LW 5) (LS1 (LW 3)) (LW 14) (LS0 (LW 6))));
  LIns [2;3;4;5;6;7;0;1]%nat (KwSet 0x5b9cca4f 6 (LAdd4 (LW 6) (LS1 (LW 4)) (LW 15) (LS0 (LW 7))));
  LIns [1;2;3;4;5;6;7;0]%nat (KwSet 0x682e6ff3 7 (LAdd4 (LW 7) (LS1 (LW 5)) (LW 0) (LS0 (LW 8))));
  LIns [0;1;2;3;4;5;6;7]%nat (KwSet 0x748f82ee 8 (LAdd4 (LW 8) (LS1 (LW 6)) (LW 1) (LS0 (LW 9))));
  LIns [7;0;1;2;3;4;5;6]%nat (KwSet 0x78a5636f 9 (LAdd4 (LW 9) (LS1 (LW 7)) (LW 2) (LS0 (LW 10))));
  LIns [6;7;0;1;2;3;4;5]%nat (KwSet 0x84c87814 10 (LAdd4 (LW 10) (LS1 (LW 8)) (LW 3) (LS0 (LW 11))));
  LIns [5;6;7;0;1;2;3;4]%nat (KwSet 0x8cc70208 11 (LAdd4 (LW 11) (LS1 (LW 9)) (LW 4) (LS0 (LW 12))));
  LIns [4;5;6;7;0;1;2;3]%nat (KwSet 0x90befffa 12 (LAdd4 (LW 12) (LS1 (LW 10)) (LW 5) (LS0 (LW 13))));
  LIns [3;4;5;6;7;0;1;2]%nat (KwSet 0xa4506ceb 13 (LAdd4 (LW 13) (LS1 (LW 11)) (LW 6) (LS0 (LW 14))));
  LIns [2;3;4;5;6;7;0;1]%nat (KwSet 0xbef9a3f7 14 (LAdd4 (LW 14) (LS1 (LW 12)) (LW 7) (LS0 (LW 15))));
  LIns [1;2;3;4;5;6;7;0]%nat (KwSet 0xc67178f2 15 (LAdd4 (LW 15) (LS1 (LW 13)) (LW 8) (LS0 (LW 0))))].
(** sse41.rs:235-298 *)
Definition sse_rounds2 : list lins := [
  LIns [0;1;2;3;4;5;6;7]%nat (KwK 0xc28a2f98);
  LIns [7;0;1;2;3;4;5;6]%nat (KwK 0x71374491);
  LIns [6;7;0;1;2;3;4;5]%nat (KwK 0xb5c0fbcf);
  LIns [5;6;7;0;1;2;3;4]%nat (KwK 0xe9b5dba5);
  LIns [4;5;6;7;0;1;2;3]%nat (KwK 0x3956c25b);
  LIns [3;4;5;6;7;0;1;2]%nat (KwK 0x59f111f1);
  LIns [2;3;4;5;6;7;0;1]%nat (KwK 0x923f82a4);
  LIns [1;2;3;4;5;6;7;0]%nat (KwK 0xab1c5ed5);
  LIns [0;1;2;3;4;5;6;7]%nat (KwK 0xd807aa98);
  LIns [7;0;1;2;3;4;5;6]%nat (KwK 0x12835b01);
  LIns [6;7;0;1;2;3;4;5]%nat (KwK 0x243185be);
  LIns [5;6;7;0;1;2;3;4]%nat (KwK 0x550c7dc3);
  LIns [4;5;6;7;0;1;2;3]%nat (KwK 0x72be5d74);
  LIns [3;4;5;6;7;0;1;2]%nat (KwK 0x80deb1fe);
  LIns [2;3;4;5;6;7;0;1]%nat (KwK 0x9bdc06a7);
  LIns [1;2;3;4;5;6;7;0]%nat (KwK 0xc19bf374);
  LIns [0;1;2;3;4;5;6;7]%nat (KwK 0x649b69c1);
  LIns [7;0;1;2;3;4;5;6]%nat (KwK 0xf0fe4786);
  LIns [6;7;0;1;2;3;4;5]%nat (KwK 0x0fe1edc6);
  LIns [5;6;7;0;1;2;3;4]%nat (KwK 0x240cf254);
  LIns [4;5;6;7;0;1;2;3]%nat (KwK 0x4fe9346f);
  LIns [3;4;5;6;7;0;1;2]%nat (KwK 0x6cc984be);
  LIns [2;3;4;5;6;7;0;1]%nat (KwK 0x61b9411e);
  LIns [1;2;3;4;5;6;7;0]%nat (KwK 0x16f988fa);
  LIns [0;1;2;3;4;5;6;7]%nat (KwK 0xf2c65152);
  LIns [7;0;1;2;3;4;5;6]%nat (KwK 0xa88e5a6d);
  LIns [6;7;0;1;2;3;4;5]%nat (KwK 0xb019fc65);
  LIns [5;6;7;0;1;2;3;4]%nat (KwK 0xb9d99ec7);
  LIns [4;5;6;7;0;1;2;3]%nat (KwK 0x9a1231c3);
  LIns [3;4;5;6;7;0;1;2]%nat (KwK 0xe70eeaa0);
  LIns [2;3;4;5;6;7;0;1]%nat (KwK 0xfdb1232b);
  LIns [1;2;3;4;5;6;7;0]%nat (KwK 0xc7353eb0);
  LIns [0;1;2;3;4;5;6;7]%nat (KwK 0x3069bad5);
  LIns [7;0;1;2;3;4;5;6]%nat (KwK 0xcb976d5f);
  LIns [6;7;0;1;2;3;4;5]%nat (KwK 0x5a0f118f);
  LIns [5;6;7;0;1;2;3;4]%nat (KwK 0xdc1eeefd);
  LIns [4;5;6;7;0;1;2;3]%nat (KwK 0x0a35b689);
  LIns [3;4;5;6;7;0;1;2]%nat (KwK 0xde0b7a04);
  LIns [2;3;4;5;6;7;0;1]%nat (KwK 0x58f4ca9d);
  LIns [1;2;3;4;5;6;7;0]%nat (KwK 0xe15d5b16);
  LIns [0;1;2;3;4;5;6;7]%nat (KwK 0x007f3e86);
  LIns [7;0;1;2;3;4;5;6]%nat (KwK 0x37088980);
  LIns [6;7;0;1;2;3;4;5]%nat (KwK 0xa507ea32);
  LIns [5;6;7;0;1;2;3;4]%nat (KwK 0x6fab9537);
  LIns [4;5;6;7;0;1;2;3]%nat (KwK 0x17406110);
  LIns [3;4;5;6;7;0;1;2]%nat (KwK 0x0d8cd6f1);
  LIns [2;3;4;5;6;7;0;1]%nat (KwK 0xcdaa3b6d);
  LIns [1;2;3;4;5;6;7;0]%nat (KwK 0xc0bbbe37);
  LIns [0;1;2;3;4;5;6;7]%nat (KwK 0x83613bda);
  LIns [7;0;1;2;3;4;5;6]%nat (KwK 0xdb48a363);
  LIns [6;7;0;1;2;3;4;5]%nat (KwK 0x0b02e931);
  LIns [5;6;7;0;1;2;3;4]%nat (KwK 0x6fd15ca7);
  LIns [4;5;6;7;0;1;2;3]%nat (KwK 0x521afaca);
  LIns [3;4;5;6;7;0;1;2]%nat (KwK 0x31338431);
  LIns [2;3;4;5;6;7;0;1]%nat (KwK 0x6ed41a95);
  LIns [1;2;3;4;5;6;7;0]%nat (KwK 0x6d437890);
  LIns [0;1;2;3;4;5;6;7]%nat (KwK 0xc39c91f2);
  LIns [7;0;1;2;3;4;5;6]%nat (KwK 0x9eccabbd);
  LIns [6;7;0;1;2;3;4;5]%nat (KwK 0xb5c9a0e6);
  LIns [5;6;7;0;1;2;3;4]%nat (KwK 0x532fb63c);
  LIns [4;5;6;7;0;1;2;3]%nat (KwK 0xd2c741c6);
  LIns [3;4;5;6;7;0;1;2]%nat (KwK 0x07237ea3);
  LIns [2;3;4;5;6;7;0;1]%nat (KwK 0xa4954b68);
  LIns [1;2;3;4;5;6;7;0]%nat (KwK 0x4c191d76)].
(** sse41.rs:321-387 *)
Definition sse_rounds3 : list lins := [
  LIns [0;1;2;3;4;5;6;7]%nat (KwW 0x428a2f98 0);
  LIns [7;0;1;2;3;4;5;6]%nat (KwW 0x71374491 1);
  LIns [6;7;0;1;2;3;4;5]%nat (KwW 0xb5c0fbcf 2);
  LIns [5;6;7;0;1;2;3;4]%nat (KwW 0xe9b5dba5 3);
  LIns [4;5;6;7;0;1;2;3]%nat (KwW 0x3956c25b 4);
  LIns [3;4;5;6;7;0;1;2]%nat (KwW 0x59f111f1 5);
  LIns [2;3;4;5;6;7;0;1]%nat (KwW 0x923f82a4 6);
  LIns [1;2;3;4;5;6;7;0]%nat (KwW 0xab1c5ed5 7);
  LIns [0;1;2;3;4;5;6;7]%nat (KwK 0x5807aa98);
  LIns [7;0;1;2;3;4;5;6]%nat (KwK 0x12835b01);
  LIns [6;7;0;1;2;3;4;5]%nat (KwK 0x243185be);
  LIns [5;6;7;0;1;2;3;4]%nat (KwK 0x550c7dc3);
  LIns [4;5;6;7;0;1;2;3]%nat (KwK 0x72be5d74);
  LIns [3;4;5;6;7;0;1;2]%nat (KwK 0x80deb1fe);
  LIns [2;3;4;5;6;7;0;1]%nat (KwK 0x9bdc06a7);
  LIns [1;2;3;4;5;6;7;0]%nat (KwK 0xc19bf274);
  LIns [0;1;2;3;4;5;6;7]%nat (KwSet 0xe49b69c1 0 (LAdd (LW 0) (LS0 (LW 1))));
  LIns [7;0;1;2;3;4;5;6]%nat (KwSet 0xefbe4786 1 (LAdd3 (LW 1) (LK 0x00a00000) (LS0 (LW 2))));
  LIns [6;7;0;1;2;3;4;5]%nat (KwSet 0x0fc19dc6 2 (LAdd3 (LW 2) (LS1 (LW 0)) (LS0 (LW 3))));
  LIns [5;6;7;0;1;2;3;4]%nat (KwSet 0x240ca1cc 3 (LAdd3 (LW 3) (LS1 (LW 1)) (LS0 (LW 4))));
  LIns [4;5;6;7;0;1;2;3]%nat (KwSet 0x2de92c6f 4 (LAdd3 (LW 4) (LS1 (LW 2)) (LS0 (LW 5))));
  LIns [3;4;5;6;7;0;1;2]%nat (KwSet 0x4a7484aa 5 (LAdd3 (LW 5) (LS1 (LW 3)) (LS0 (LW 6))));
  LIns [2;3;4;5;6;7;0;1]%nat (KwSet 0x5cb0a9dc 6 (LAdd4 (LW 6) (LS1 (LW 4)) (LK 0x00000100) (LS0 (LW 7))));
  LIns [1;2;3;4;5;6;7;0]%nat (KwSet 0x76f988da 7 (LAdd4 (LW 7) (LS1 (LW 5)) (LW 0) (LK 0x11002000)));
  LIns [0;1;2;3;4;5;6;7]%nat (KwSet 0x983e5152 8 (LAdd3 (LK 0x80000000) (LS1 (LW 6)) (LW 1)));
  LIns [7;0;1;2;3;4;5;6]%nat (KwSet 0xa831c66d 9 (LAdd (LS1 (LW 7)) (LW 2)));
  LIns [6;7;0;1;2;3;4;5]%nat (KwSet 0xb00327c8 10 (LAdd (LS1 (LW 8)) (LW 3)));
  LIns [5;6;7;0;1;2;3;4]%nat (KwSet 0xbf597fc7 11 (LAdd (LS1 (LW 9)) (LW 4)));
  LIns [4;5;6;7;0;1;2;3]%nat (KwSet 0xc6e00bf3 12 (LAdd (LS1 (LW 10)) (LW 5)));
  LIns [3;4;5;6;7;0;1;2]%nat (KwSet 0xd5a79147 13 (LAdd (LS1 (LW 11)) (LW 6)));
  LIns [2;3;4;5;6;7;0;1]%nat (KwSet 0x06ca6351 14 (LAdd3 (LS1 (LW 12)) (LW 7) (LK 0x00400022)));
  LIns [1;2;3;4;5;6;7;0]%nat (KwSet 0x14292967 15 (LAdd4 (LK 0x00000100) (LS1 (LW 13)) (LW 8) (LS0 (LW 0))));
  LIns [0;1;2;3;4;5;6;7]%nat (KwSet 0x27b70a85 0 (LAdd4 (LW 0) (LS1 (LW 14)) (LW 9) (LS0 (LW 1))));
  LIns [7;0;1;2;3;4;5;6]%nat (KwSet 0x2e1b2138 1 (LAdd4 (LW 1) (LS1 (LW 15)) (LW 10) (LS0 (LW 2))));
  LIns [6;7;0;1;2;3;4;5]%nat (KwSet 0x4d2c6dfc 2 (LAdd4 (LW 2) (LS1 (LW 0)) (LW 11) (LS0 (LW 3))));
  LIns [5;6;7;0;1;2;3;4]%nat (KwSet 0x53380d13 3 (LAdd4 (LW 3) (LS1 (LW 1)) (LW 12) (LS0 (LW 4))));
  LIns [4;5;6;7;0;1;2;3]%nat (KwSet 0x650a7354 4 (LAdd4 (LW 4) (LS1 (LW 2)) (LW 13) (LS0 (LW 5))));
  LIns [3;4;5;6;7;0;1;2]%nat (KwSet 0x766a0abb 5 (LAdd4 (LW 5) (LS1 (LW 3)) (LW 14) (LS0 (LW 6))));
  LIns [2;3;4;5;6;7;0;1]%nat (KwSet 0x81c2c92e 6 (LAdd4 (LW 6) (LS1 (LW 4)) (LW 15) (LS0 (LW 7))));
  LIns [1;2;3;4;5;6;7;0]%nat (KwSet 0x92722c85 7 (LAdd4 (LW 7) (LS1 (LW 5)) (LW 0) (LS0 (LW 8))));
  LIns [0;1;2;3;4;5;6;7]%nat (KwSet 0xa2bfe8a1 8 (LAdd4 (LW 8) (LS1 (LW 6)) (LW 1) (LS0 (LW 9))));
  LIns [7;0;1;2;3;4;5;6]%nat (KwSet 0xa81a664b 9 (LAdd4 (LW 9) (LS1 (LW 7)) (LW 2) (LS0 (LW 10))));
  LIns [6;7;0;1;2;3;4;5]%nat (KwSet 0xc24b8b70 10 (LAdd4 (LW 10) (LS1 (LW 8)) (LW 3) (LS0 (LW 11))));
  LIns [5;6;7;0;1;2;3;4]%nat (KwSet 0xc76c51a3 11 (LAdd4 (LW 11) (LS1 (LW 9)) (LW 4) (LS0 (LW 12))));
  LIns [4;5;6;7;0;1;2;3]%nat (KwSet 0xd192e819 12 (LAdd4 (LW 12) (LS1 (LW 10)) (LW 5) (LS0 (LW 13))));
  LIns [3;4;5;6;7;0;1;2]%nat (KwSet 0xd6990624 13 (LAdd4 (LW 13) (LS1 (LW 11)) (LW 6) (LS0 (LW 14))));
  LIns [2;3;4;5;6;7;0;1]%nat (KwSet 0xf40e3585 14 (LAdd4 (LW 14) (LS1 (LW 12)) (LW 7) (LS0 (LW 15))));
  LIns [1;2;3;4;5;6;7;0]%nat (KwSet 0x106aa070 15 (LAdd4 (LW 15) (LS1 (LW 13)) (LW 8) (LS0 (LW 0))));
  LIns [0;1;2;3;4;5;6;7]%nat (KwSet 0x19a4c116 0 (LAdd4 (LW 0) (LS1 (LW 14)) (LW 9) (LS0 (LW 1))));
  LIns [7;0;1;2;3;4;5;6]%nat (KwSet 0x1e376c08 1 (LAdd4 (LW 1) (LS1 (LW 15)) (LW 10) (LS0 (LW 2))));
  LIns [6;7;0;1;2;3;4;5]%nat (KwSet 0x2748774c 2 (LAdd4 (LW 2) (LS1 (LW 0)) (LW 11) (LS0 (LW 3))));
  LIns [5;6;7;0;1;2;3;4]%nat (KwSet 0x34b0bcb5 3 (LAdd4 (LW 3) (LS1 (LW 1)) (LW 12) (LS0 (LW 4))));
  LIns [4;5;6;7;0;1;2;3]%nat (KwSet 0x391c0cb3 4 (LAdd4 (LW 4) (LS1 (LW 2)) (LW 13) (LS0 (LW 5))));
  LIns [3;4;5;6;7;0;1;2]%nat (KwSet 0x4ed8aa4a 5 (LAdd4 (LW 5) (LS1 (LW 3)) (LW 14) (LS0 (LW 6))));
  LIns [2;3;4;5;6;7;0;1]%nat (KwSet 0x5b9cca4f 6 (LAdd4 (LW 6) (LS1 (LW 4)) (LW 15) (LS0 (LW 7))));
  LIns [1;2;3;4;5;6;7;0]%nat (KwSet 0x682e6ff3 7 (LAdd4 (LW 7) (LS1 (LW 5)) (LW 0) (LS0 (LW 8))));
  LIns [0;1;2;3;4;5;6;7]%nat (KwSet 0x748f82ee 8 (LAdd4 (LW 8) (LS1 (LW 6)) (LW 1) (LS0 (LW 9))));
  LIns [7;0;1;2;3;4;5;6]%nat (KwSet 0x78a5636f 9 (LAdd4 (LW 9) (LS1 (LW 7)) (LW 2) (LS0 (LW 10))));
  LIns [6;7;0;1;2;3;4;5]%nat (KwSet 0x84c87814 10 (LAdd4 (LW 10) (LS1 (LW 8)) (LW 3) (LS0 (LW 11))));
  LIns [5;6;7;0;1;2;3;4]%nat (KwSet 0x8cc70208 11 (LAdd4 (LW 11) (LS1 (LW 9)) (LW 4) (LS0 (LW 12))));
  LIns [4;5;6;7;0;1;2;3]%nat (KwSet 0x90befffa 12 (LAdd4 (LW 12) (LS1 (LW 10)) (LW 5) (LS0 (LW 13))));
  LIns [3;4;5;6;7;0;1;2]%nat (KwSet 0xa4506ceb 13 (LAdd4 (LW 13) (LS1 (LW 11)) (LW 6) (LS0 (LW 14))));
  LIns [2;3;4;5;6;7;0;1]%nat (KwSet 0xbef9a3f7 14 (LAdd4 (LW 14) (LS1 (LW 12)) (LW 7) (LS0 (LW 15))));
  LIns [1;2;3;4;5;6;7;0]%nat (KwSet 0xc67178f2 15 (LAdd4 (LW 15) (LS1 (LW 13)) (LW 8) (LS0 (LW 0))))].
(** sse41.rs:131-398 *)
Definition sse_sha256d_64_4way : list bytes -> list bytes -> list bytes :=
  d64_lanes 4 sse_init sse_add1 sse_init3 sse_out sse_rounds1 sse_rounds2 sse_rounds3.
(** avx2.rs:151-158 *)
Definition avx_init : list N := [0x6a09e667; 0xbb67ae85; 0x3c6ef372; 0xa54ff53a; 0x510e527f; 0x9b05688c; 0x1f83d9ab; 0x5be0cd19].
(** avx2.rs:232-239 *)
Definition avx_add1 : list N := [0x6a09e667; 0xbb67ae85; 0x3c6ef372; 0xa54ff53a; 0x510e527f; 0x9b05688c; 0x1f83d9ab; 0x5be0cd19].
(** avx2.rs:329-336 *)
Definition avx_init3 : list N := [0x6a09e667; 0xbb67ae85; 0x3c6ef372; 0xa54ff53a; 0x510e527f; 0x9b05688c; 0x1f83d9ab; 0x5be0cd19].
(** avx2.rs:407-414 *)
Definition avx_out : list N := [0x6a09e667; 0xbb67ae85; 0x3c6ef372; 0xa54ff53a; 0x510e527f; 0x9b05688c; 0x1f83d9ab; 0x5be0cd19].
(** avx2.rs:164-229 *)
Definition avx_rounds1 : list lins := [
  LIns [0;1;2;3;4;5;6;7]%nat (KwSet 0x428a2f98 0 (LRead 0));
  LIns [7;0;1;2;3;4;5;6]%nat (KwSet 0x71374491 1 (LRead 4));
  LIns [6;7;0;1;2;3;4;5]%nat (KwSet 0xb5c0fbcf 2 (LRead 8));
  LIns [5;6;7;0;1;2;3;4]%nat (KwSet 0xe9b5dba5 3 (LRead 12));
  LIns [4;5;6;7;0;1;2;3]%nat (KwSet 0x3956c25b 4 (LRead 16));
  LIns [3;4;5;6;7;0;1;2]%nat (KwSet 0x59f111f1 5 (LRead 20));
  LIns [2;3;4;5;6;7;0;1]%nat (KwSet 0x923f82a4 6 (LRead 24));
  LIns [1;2;3;4;5;6;7;0]%nat (KwSet 0xab1c5ed5 7 (LRead 28));
  LIns [0;1;2;3;4;5;6;7]%nat (KwSet 0xd807aa98 8 (LRead 32));
  LIns [7;0;1;2;3;4;5;6]%nat (KwSet 0x12835b01 9 (LRead 36));
  LIns [6;7;0;1;2;3;4;5]%nat (KwSet 0x243185be 10 (LRead 40));
  LIns [5;6;7;0;1;2;3;4]%nat (KwSet 0x550c7dc3 11 (LRead 44));
  LIns [4;5;6;7;0;1;2;3]%nat (KwSet 0x72be5d74 12 (LRead 48));
  LIns [3;4;5;6;7;0;1;2]%nat (KwSet 0x80deb1fe 13 (LRead 52));
  LIns [2;3;4;5;6;7;0;1]%nat (KwSet 0x9bdc06a7 14 (LRead 56));
  LIns [1;2;3;4;5;6;7;0]%nat (KwSet 0xc19bf174 15 (LRead 60));
  LIns [0;1;2;3;4;5;6;7]%nat (KwSet 0xe49b69c1 0 (LAdd4 (LW 0) (LS1 (LW 14)) (LW 9) (LS0 (LW 1))));
  LIns [7;0;1;2;3;4;5;6]%nat (KwSet 0xefbe4786 1 (LAdd4 (LW 1) (LS1 (LW 15)) (LW 10) (LS0 (LW 2))));
  LIns [6;7;0;1;2;3;4;5]%nat (KwSet 0x0fc19dc6 2 (LAdd4 (LW 2) (LS1 (LW 0)) (LW 11) (LS0 (LW 3))));
  LIns [5;6;7;0;1;2;3;4]%nat (KwSet 0x240ca1cc 3 (LAdd4 (LW 3) (LS1 (LW 1)) (LW 12) (LS0 (LW 4))));
  LIns [4;5;6;7;0;1;2;3]%nat (KwSet 0x2de92c6f 4 (LAdd4 (LW 4) (LS1 (LW 2)) (LW 13) (LS0 (LW 5))));
  LIns [3;4;5;6;7;0;1;2]%nat (KwSet 0x4a7484aa 5 (LAdd4 (LW 5) (LS1 (LW 3)) (LW 14) (LS0 (LW 6))));
  LIns [2;3;4;5;6;7;0;1]%nat (KwSet 0x5cb0a9dc 6 (LAdd4 (LW 6) (LS1 (LW 4)) (LW 15) (LS0 (LW 7))));
  LIns [1;2;3;4;5;6;7;0]%nat (KwSet 0x76f988da 7 (LAdd4 (LW 7) (LS1 (LW 5)) (LW 0) (LS0 (LW 8))));
  LIns [0;1;2;3;4;5;6;7]%nat (KwSet 0x983e5152 8 (LAdd4 (LW 8) (LS1 (LW 6)) (LW 1) (LS0 (LW 9))));
  LIns [7;0;1;2;3;4;5;6]%nat (KwSet 0xa831c66d 9 (LAdd4 (LW 9) (LS1 (LW 7)) (LW 2) (LS0 (LW 10))));
  LIns [6;7;0;1;2;3;4;5]%nat (KwSet 0xb00327c8 10 (LAdd4 (LW 10) (LS1 (LW 8)) (LW 3) (LS0 (LW 11))));
  LIns [5;6;7;0;1;2;3;4]%nat (KwSet 0xbf597fc7 11 (LAdd4 (LW 11) (LS1 (LW 9)) (LW 4) (LS0 (LW 12))));
  LIns [4;5;6;7;0;1;2;3]%nat (KwSet 0xc6e00bf3 12 (LAdd4 (LW 12) (LS1 (LW 10)) (LW 5) (LS0 (LW 13))));
  LIns [3;4;5;6;7;0;1;2]%nat (KwSet 0xd5a79147 13 (LAdd4 (LW 13) (LS1 (LW 11)) (LW 6) (LS0 (LW 14))));
  LIns [2;3;4;5;6;7;0;1]%nat (KwSet 0x06ca6351 14 (LAdd4 (LW 14) (LS1 (LW 12)) (LW 7) (LS0 (LW 15))));
  LIns [1;2;3;4;5;6;7;0]%nat (KwSet 0x14292967 15 (LAdd4 (LW 15) (LS1 (LW 13)) (LW 8) (LS0 (LW 0))));
  LIns [0;1;2;3;4;5;6;7]%nat (KwSet 0x27b70a85 0 (LAdd4 (LW 0) (LS1 (LW 14)) (LW 9) (LS0 (LW 1))));
  LIns [7;0;1;2;3;4;5;6]%nat (KwSet 0x2e1b2138 1 (LAdd4 (LW 1) (LS1 (LW 15)) (LW 10) (LS0 (LW 2))));
  LIns [6;7;0;1;2;3;4;5]%nat (KwSet 0x4d2c6dfc 2 (LAdd4 (LW 2) (LS1 (LW 0)) (LW 11) (LS0 (LW 3))));
  LIns [5;6;7;0;1;2;3;4]%nat (KwSet 0x53380d13 3 (LAdd4 (LW 3) (LS1 (LW 1)) (LW 12) (LS0 (LW 4))));
  LIns [4;5;6;7;0;1;2;3]%nat (KwSet 0x650a7354 4 (LAdd4 (LW 4) (LS1 (LW 2)) (LW 13) (LS0 (LW 5))));
  LIns [3;4;5;6;7;0;1;2]%nat (KwSet 0x766a0abb 5 (LAdd4 (LW 5) (LS1 (LW 3)) (LW 14) (LS0 (LW 6))));
  LIns [2;3;4;5;6;7;0;1]%nat (KwSet 0x81c2c92e 6 (LAdd4 (LW 6) (LS1 (LW 4)) (LW 15) (LS0 (LW 7))));
  LIns [1;2;3;4;5;6;7;0]%nat (KwSet 0x92722c85 7 (LAdd4 (LW 7) (LS1 (LW 5)) (LW 0) (LS0 (LW 8))));
  LIns [0;1;2;3;4;5;6;7]%nat (KwSet 0xa2bfe8a1 8 (LAdd4 (LW 8) (LS1 (LW 6)) (LW 1) (LS0 (LW 9))));
  LIns [7;0;1;2;3;4;5;6]%nat (KwSet 0xa81a664b 9 (LAdd4 (LW 9) (LS1 (LW 7)) (LW 2) (LS0 (LW 10))));
  LIns [6;7;0;1;2;3;4;5]%nat (KwSet 0xc24b8b70 10 (LAdd4 (LW 10) (LS1 (LW 8)) (LW 3) (LS0 (LW 11))));
  LIns [5;6;7;0;1;2;3;4]%nat (KwSet 0xc76c51a3 11 (LAdd4 (LW 11) (LS1 (LW 9)) (LW 4) (LS0 (LW 12))));
  LIns [4;5;6;7;0;1;2;3]%nat (KwSet 0xd192e819 12 (LAdd4 (LW 12) (LS1 (LW 10)) (LW 5) (LS0 (LW 13))));
  LIns [3;4;5;6;7;0;1;2]%nat (KwSet 0xd6990624 13 (LAdd4 (LW 13) (LS1 (LW 11)) (LW 6) (LS0 (LW 14))));
  LIns [2;3;4;5;6;7;0;1]%nat (KwSet 0xf40e3585 14 (LAdd4 (LW 14) (LS1 (LW 12)) (LW 7) (LS0 (LW 15))));
  LIns [1;2;3;4;5;6;7;0]%nat (KwSet 0x106aa070 15 (LAdd4 (LW 15) (LS1 (LW 13)) (LW 8) (LS0 (LW 0))));
  LIns [0;1;2;3;4;5;6;7]%nat (KwSet 0x19a4c116 0 (LAdd4 (LW 0) (LS1 (LW 14)) (LW 9) (LS0 (LW 1))));
  LIns [7;0;1;2;3;4;5;6]%nat (KwSet 0x1e376c08 1 (LAdd4 (LW 1) (LS1 (LW 15)) (LW 10) (LS0 (LW 2))));
  LIns [6;7;0;1;2;3;4;5]%nat (KwSet 0x2748774c 2 (LAdd4 (LW 2) (LS1 (LW 0)) (LW 11) (LS0 (LW 3))));
  LIns [5;6;7;0;1;2;3;4]%nat (KwSet 0x34b0bcb5 3 (LAdd4 (LW 3) (LS1 (LW 1)) (LW 12) (LS0 (LW 4))));
  LIns [4;5;6;7;0;1;2;3]%nat (KwSet 0x391c0cb3 4 (LAdd4 (LW 4) (LS1 (LW 2)) (LW 13) (LS0 (LW 5))));
  LIns [3;4;5;6;7;0;1;2]%nat (KwSet 0x4ed8aa4a 5 (LAdd4 (LW 5) (LS1 (LW 3)) (LW 14) (LS0 (LW 6))));
  LIns [2;3;4;5;6;7;0;1]%nat (KwSet 0x5b9cca4f 6 (LAdd4 (LW 6) (LS1 (LW 4)) (LW 15) (LS0 (LW 7))));
  LIns [1;2;3;4;5;6;7;0]%nat (KwSet 0x682e6ff3 7 (LAdd4 (LW 7) (LS1 (LW 5)) (LW 0) (LS0 (LW 8))));
  LIns [0;1;2;3;4;5;6;7]%nat (KwSet 0x748f82ee 8 (LAdd4 (LW 8) (LS1 (LW 6)) (LW 1) (LS0 (LW 9))));
  LIns [7;0;1;2;3;4;5;6]%nat (KwSet 0x78a5636f 9 (LAdd4 (LW 9) (LS1 (LW 7)) (LW 2) (LS0 (LW 10))));
  LIns [6;7;0;1;2;3;4;5]%nat (KwSet 0x84c87814 10 (LAdd4 (LW 10) (LS1 (LW 8)) (LW 3) (LS0 (LW 11))));
  LIns [5;6;7;0;1;2;3;4]%nat (KwSet 0x8cc70208 11 (LAdd4 (LW 11) (LS1 (LW 9)) (LW 4) (LS0 (LW 12))));
  LIns [4;5;6;7;0;1;2;3]%nat (KwSet 0x90befffa 12 (LAdd4 (LW 12) (LS1 (LW 10)) (LW 5) (LS0 (LW 13))));
  LIns [3;4;5;6;7;0;1;2]%nat (KwSet 0xa4506ceb 13 (LAdd4 (LW 13) (LS1 (LW 11)) (LW 6) (LS0 (LW 14))));
  LIns [2;3;4;5;6;7;0;1]%nat (KwSet 0xbef9a3f7 14 (LAdd4 (LW 14) (LS1 (LW 12)) (LW 7) (LS0 (LW 15))));
  LIns [1;2;3;4;5;6;7;0]%nat (KwSet 0xc67178f2 15 (LAdd4 (LW 15) (LS1 (LW 13)) (LW 8) (LS0 (LW 0))))].
(** avx2.rs:253-316 *)
Definition avx_rounds2 : list lins := [
  LIns [0;1;2;3;4;5;6;7]%nat (KwK 0xc28a2f98);
  LIns [7;0;1;2;3;4;5;6]%nat (KwK 0x71374491);
  LIns [6;7;0;1;2;3;4;5]%nat (KwK 0xb5c0fbcf);
  LIns [5;6;7;0;1;2;3;4]%nat (KwK 0xe9b5dba5);
  LIns [4;5;6;7;0;1;2;3]%nat (KwK 0x3956c25b);
  LIns [3;4;5;6;7;0;1;2]%nat (KwK 0x59f111f1);
  LIns [2;3;4;5;6;7;0;1]%nat (KwK 0x923f82a4);
  LIns [1;2;3;4;5;6;7;0]%nat (KwK 0xab1c5ed5);
  LIns [0;1;2;3;4;5;6;7]%nat (KwK 0xd807aa98);
  LIns [7;0;1;2;3;4;5;6]%nat (KwK 0x12835b01);
  LIns [6;7;0;1;2;3;4;5]%nat (KwK 0x243185be);
  LIns [5;6;7;0;1;2;3;4]%nat (KwK 0x550c7dc3);
  LIns [4;5;6;7;0;1;2;3]%nat (KwK 0x72be5d74);
  LIns [3;4;5;6;7;0;1;2]%nat (KwK 0x80deb1fe);
  LIns [2;3;4;5;6;7;0;1]%nat (KwK 0x9bdc06a7);
  LIns [1;2;3;4;5;6;7;0]%nat (KwK 0xc19bf374);
  LIns [0;1;2;3;4;5;6;7]%nat (KwK 0x649b69c1);
  LIns [7;0;1;2;3;4;5;6]%nat (KwK 0xf0fe4786);
  LIns [6;7;0;1;2;3;4;5]%nat (KwK 0x0fe1edc6);
  LIns [5;6;7;0;1;2;3;4]%nat (KwK 0x240cf254);
  LIns [4;5;6;7;0;1;2;3]%nat (KwK 0x4fe9346f);
  LIns [3;4;5;6;7;0;1;2]%nat (KwK 0x6cc984be);
  LIns [2;3;4;5;6;7;0;1]%nat (KwK 0x61b9411e);
  LIns [1;2;3;4;5;6;7;0]%nat (KwK 0x16f988fa);
  LIns [0;1;2;3;4;5;6;7]%nat (KwK 0xf2c65152);
  LIns [7;0;1;2;3;4;5;6]%nat (KwK 0xa88e5a6d);
  LIns [6;7;0;1;2;3;4;5]%nat (KwK 0xb019fc65);
  LIns [5;6;7;0;1;2;3;4]%nat (KwK 0xb9d99ec7);
  LIns [4;5;6;7;0;1;2;3]%nat (KwK 0x9a1231c3);
  LIns [3;4;5;6;7;0;1;2]%nat (KwK 0xe70eeaa0);
  LIns [2;3;4;5;6;7;0;1]%nat (KwK 0xfdb1232b);
  LIns [1;2;3;4;5;6;7;0]%nat (KwK 0xc7353eb0);
  LIns [0;1;2;3;4;5;6;7]%nat (KwK 0x3069bad5);
  LIns [7;0;1;2;3;4;5;6]%nat (KwK 0xcb976d5f);
  LIns [6;7;0;1;2;3;4;5]%nat (KwK 0x5a0f118f);
  LIns [5;6;7;0;1;2;3;4]%nat (KwK 0xdc1eeefd);
  LIns [4;5;6;7;0;1;2;3]%nat (KwK 0x0a35b689);
  LIns [3;4;5;6;7;0;1;2]%nat (KwK 0xde0b7a04);
  LIns [2;3;4;5;6;7;0;1]%nat (KwK 0x58f4ca9d);
  LIns [1;2;3;4;5;6;7;0]%nat (KwK 0xe15d5b16);
  LIns [0;1;2;3;4;5;6;7]%nat (KwK 0x007f3e86);
  LIns [7;0;1;2;3;4;5;6]%nat (KwK 0x37088980);
  LIns [6;7;0;1;2;3;4;5]%nat (KwK 0xa507ea32);
  LIns [5;6;7;0;1;2;3;4]%nat (KwK 0x6fab9537);
  LIns [4;5;6;7;0;1;2;3]%nat (KwK 0x17406110);
  LIns [3;4;5;6;7;0;1;2]%nat (KwK 0x0d8cd6f1);
  LIns [2;3;4;5;6;7;0;1]%nat (KwK 0xcdaa3b6d);
  LIns [1;2;3;4;5;6;7;0]%nat (KwK 0xc0bbbe37);
  LIns [0;1;2;3;4;5;6;7]%nat (KwK 0x83613bda);
  LIns [7;0;1;2;3;4;5;6]%nat (KwK 0xdb48a363);
  LIns [6;7;0;1;2;3;4;5]%nat (KwK 0x0b02e931);
  LIns [5;6;7;0;1;2;3;4]%nat (KwK 0x6fd15ca7);
  LIns [4;5;6;7;0;1;2;3]%nat (KwK 0x521afaca);
  LIns [3;4;5;6;7;0;1;2]%nat (KwK 0x31338431);
  LIns [2;3;4;5;6;7;0;1]%nat (KwK 0x6ed41a95);
  LIns [1;2;3;4;5;6;7;0]%nat (KwK 0x6d437890);
  LIns [0;1;2;3;4;5;6;7]%nat (KwK 0xc39c91f2);
  LIns [7;0;1;2;3;4;5;6]%nat (KwK 0x9eccabbd);
  LIns [6;7;0;1;2;3;4;5]%nat (KwK 0xb5c9a0e6);
  LIns [5;6;7;0;1;2;3;4]%nat (KwK 0x532fb63c);
  LIns [4;5;6;7;0;1;2;3]%nat (KwK 0xd2c741c6);
  LIns [3;4;5;6;7;0;1;2]%nat (KwK 0x07237ea3);
  LIns [2;3;4;5;6;7;0;1]%nat (KwK 0xa4954b68);
  LIns [1;2;3;4;5;6;7;0]%nat (KwK 0x4c191d76)].
(** avx2.rs:339-404 *)
Definition avx_rounds3 : list lins := [
  LIns [0;1;2;3;4;5;6;7]%nat (KwW 0x428a2f98 0);
  LIns [7;0;1;2;3;4;5;6]%nat (KwW 0x71374491 1);
  LIns [6;7;0;1;2;3;4;5]%nat (KwW 0xb5c0fbcf 2);
  LIns [5;6;7;0;1;2;3;4]%nat (KwW 0xe9b5dba5 3);
  LIns [4;5;6;7;0;1;2;3]%nat (KwW 0x3956c25b 4);
  LIns [3;4;5;6;7;0;1;2]%nat (KwW 0x59f111f1 5);
  LIns [2;3;4;5;6;7;0;1]%nat (KwW 0x923f82a4 6);
  LIns [1;2;3;4;5;6;7;0]%nat (KwW 0xab1c5ed5 7);
  LIns [0;1;2;3;4;5;6;7]%nat (KwK 0x5807aa98);
  LIns [7;0;1;2;3;4;5;6]%nat (KwK 0x12835b01);
  LIns [6;7;0;1;2;3;4;5]%nat (KwK 0x243185be);
  LIns [5;6;7;0;1;2;3;4]%nat (KwK 0x550c7dc3);
  LIns [4;5;6;7;0;1;2;3]%nat (KwK 0x72be5d74);
  LIns [3;4;5;6;7;0;1;2]%nat (KwK 0x80deb1fe);
  LIns [2;3;4;5;6;7;0;1]%nat (KwK 0x9bdc06a7);
  LIns [1;2;3;4;5;6;7;0]%nat (KwK 0xc19bf274);
  LIns [0;1;2;3;4;5;6;7]%nat (KwSet 0xe49b69c1 0 (LAdd (LW 0) (LS0 (LW 1))));
  LIns [7;0;1;2;3;4;5;6]%nat (KwSet 0xefbe4786 1 (LAdd3 (LW 1) (LK 0x00a00000) (LS0 (LW 2))));
  LIns [6;7;0;1;2;3;4;5]%nat (KwSet 0x0fc19dc6 2 (LAdd3 (LW 2) (LS1 (LW 0)) (LS0 (LW 3))));
  LIns [5;6;7;0;1;2;3;4]%nat (KwSet 0x240ca1cc 3 (LAdd3 (LW 3) (LS1 (LW 1)) (LS0 (LW 4))));
  LIns [4;5;6;7;0;1;2;3]%nat (KwSet 0x2de92c6f 4 (LAdd3 (LW 4) (LS1 (LW 2)) (LS0 (LW 5))));
  LIns [3;4;5;6;7;0;1;2]%nat (KwSet 0x4a7484aa 5 (LAdd3 (LW 5) (LS1 (LW 3)) (LS0 (LW 6))));
  LIns [2;3;4;5;6;7;0;1]%nat (KwSet 0x5cb0a9dc 6 (LAdd4 (LW 6) (LS1 (LW 4)) (LK 0x00000100) (LS0 (LW 7))));
  LIns [1;2;3;4;5;6;7;0]%nat (KwSet 0x76f988da 7 (LAdd4 (LW 7) (LS1 (LW 5)) (LW 0) (LK 0x11002000)));
  LIns [0;1;2;3;4;5;6;7]%nat (KwSet 0x983e5152 8 (LAdd3 (LK 0x80000000) (LS1 (LW 6)) (LW 1)));
  LIns [7;0;1;2;3;4;5;6]%nat (KwSet 0xa831c66d 9 (LAdd (LS1 (LW 7)) (LW 2)));
  LIns [6;7;0;1;2;3;4;5]%nat (KwSet 0xb00327c8 10 (LAdd (LS1 (LW 8)) (LW 3)));
  LIns [5;6;7;0;1;2;3;4]%nat (KwSet 0xbf597fc7 11 (LAdd (LS1 (LW 9)) (LW 4)));
  LIns [4;5;6;7;0;1;2;3]%nat (KwSet 0xc6e00bf3 12 (LAdd (LS1 (LW 10)) (LW 5)));
  LIns [3;4;5;6;7;0;1;2]%nat (KwSet 0xd5a79147 13 (LAdd (LS1 (LW 11)) (LW 6)));
  LIns [2;3;4;5;6;7;0;1]%nat (KwSet 0x06ca6351 14 (LAdd3 (LS1 (LW 12)) (LW 7) (LK 0x00400022)));
  LIns [1;2;3;4;5;6;7;0]%nat (KwSet 0x14292967 15 (LAdd4 (LK 0x00000100) (LS1 (LW 13)) (LW 8) (LS0 (LW 0))));
  LIns [0;1;2;3;4;5;6;7]%nat (KwSet 0x27b70a85 0 (LAdd4 (LW 0) (LS1 (LW 14)) (LW 9) (LS0 (LW 1))));
  LIns [7;0;1;2;3;4;5;6]%nat (KwSet 0x2e1b2138 1 (LAdd4 (LW 1) (LS1 (LW 15)) (LW 10) (LS0 (LW 2))));
  LIns [6;7;0;1;2;3;4;5]%nat (KwSet 0x4d2c6dfc 2 (LAdd4 (LW 2) (LS1 (LW 0)) (LW 11) (LS0 (LW 3))));
  LIns [5;6;7;0;1;2;3;4]%nat (KwSet 0x53380d13 3 (LAdd4 (LW 3) (LS1 (LW 1)) (LW 12) (LS0 (LW 4))));
  LIns [4;5;6;7;0;1;2;3]%nat (KwSet 0x650a7354 4 (LAdd4 (LW 4) (LS1 (LW 2)) (LW 13) (LS0 (LW 5))));
  LIns [3;4;5;6;7;0;1;2]%nat (KwSet 0x766a0abb 5 (LAdd4 (LW 5) (LS1 (LW 3)) (LW 14) (LS0 (LW 6))));
  LIns [2;3;4;5;6;7;0;1]%nat (KwSet 0x81c2c92e 6 (LAdd4 (LW 6) (LS1 (LW 4)) (LW 15) (LS0 (LW 7))));
  LIns [1;2;3;4;5;6;7;0]%nat (KwSet 0x92722c85 7 (LAdd4 (LW 7) (LS1 (LW 5)) (LW 0) (LS0 (LW 8))));
  LIns [0;1;2;3;4;5;6;7]%nat (KwSet 0xa2bfe8a1 8 (LAdd4 (LW 8) (LS1 (LW 6)) (LW 1) (LS0 (LW 9))));
  LIns [7;0;1;2;3;4;5;6]%nat (KwSet 0xa81a664b 9 (LAdd4 (LW 9) (LS1 (LW 7)) (LW 2) (LS0 (LW 10))));
  LIns [6;7;0;1;2;3;4;5]%nat (KwSet 0xc24b8b70 10 (LAdd4 (LW 10) (LS1 (LW 8)) (LW 3) (LS0 (LW 11))));
  LIns [5;6;7;0;1;2;3;4]%nat (KwSet 0xc76c51a3 11 (LAdd4 (LW 11) (LS1 (LW 9)) (LW 4) (LS0 (LW 12))));
  LIns [4;5;6;7;0;1;2;3]%nat (KwSet 0xd192e819 12 (LAdd4 (LW 12) (LS1 (LW 10)) (LW 5) (LS0 (LW 13))));
  LIns [3;4;5;6;7;0;1;2]%nat (KwSet 0xd6990624 13 (LAdd4 (LW 13) (LS1 (LW 11)) (LW 6) (LS0 (LW 14))));
  LIns [2;3;4;5;6;7;0;1]%nat (KwSet 0xf40e3585 14 (LAdd4 (LW 14) (LS1 (LW 12)) (LW 7) (LS0 (LW 15))));
  LIns [1;2;3;4;5;6;7;0]%nat (KwSet 0x106aa070 15 (LAdd4 (LW 15) (LS1 (LW 13)) (LW 8) (LS0 (LW 0))));
  LIns [0;1;2;3;4;5;6;7]%nat (KwSet 0x19a4c116 0 (LAdd4 (LW 0) (LS1 (LW 14)) (LW 9) (LS0 (LW 1))));
  LIns [7;0;1;2;3;4;5;6]%nat (KwSet 0x1e376c08 1 (LAdd4 (LW 1) (LS1 (LW 15)) (LW 10) (LS0 (LW 2))));
  LIns [6;7;0;1;2;3;4;5]%nat (KwSet 0x2748774c 2 (LAdd4 (LW 2) (LS1 (LW 0)) (LW 11) (LS0 (LW 3))));
  LIns [5;6;7;0;1;2;3;4]%nat (KwSet 0x34b0bcb5 3 (LAdd4 (LW 3) (LS1 (LW 1)) (LW 12) (LS0 (LW 4))));
  LIns [4;5;6;7;0;1;2;3]%nat (KwSet 0x391c0cb3 4 (LAdd4 (LW 4) (LS1 (LW 2)) (LW 13) (LS0 (LW 5))));
  LIns [3;4;5;6;7;0;1;2]%nat (KwSet 0x4ed8aa4a 5 (LAdd4 (LW 5) (LS1 (LW 3)) (LW 14) (LS0 (LW 6))));
  LIns [2;3;4;5;6;7;0;1]%nat (KwSet 0x5b9cca4f 6 (LAdd4 (LW 6) (LS1 (LW 4)) (LW 15) (LS0 (LW 7))));
  LIns [1;2;3;4;5;6;7;0]%nat (KwSet 0x682e6ff3 7 (LAdd4 (LW 7) (LS1 (LW 5)) (LW 0) (LS0 (LW 8))));
  LIns [0;1;2;3;4;5;6;7]%nat (KwSet 0x748f82ee 8 (LAdd4 (LW 8) (LS1 (LW 6)) (LW 1) (LS0 (LW 9))));
  LIns [7;0;1;2;3;4;5;6]%nat (KwSet 0x78a5636f 9 (LAdd4 (LW 9) (LS1 (LW 7)) (LW 2) (LS0 (LW 10))));
  LIns [6;7;0;1;2;3;4;5]%nat (KwSet 0x84c87814 10 (LAdd4 (LW 10) (LS1 (LW 8)) (LW 3) (LS0 (LW 11))));
  LIns [5;6;7;0;1;2;3;4]%nat (KwSet 0x8cc70208 11 (LAdd4 (LW 11) (LS1 (LW 9)) (LW 4) (LS0 (LW 12))));
  LIns [4;5;6;7;0;1;2;3]%nat (KwSet 0x90befffa 12 (LAdd4 (LW 12) (LS1 (LW 10)) (LW 5) (LS0 (LW 13))));
  LIns [3;4;5;6;7;0;1;2]%nat (KwSet 0xa4506ceb 13 (LAdd4 (LW 13) (LS1 (LW 11)) (LW 6) (LS0 (LW 14))));
  LIns [2;3;4;5;6;7;0;1]%nat (KwSet 0xbef9a3f7 14 (LAdd4 (LW 14) (LS1 (LW 12)) (LW 7) (LS0 (LW 15))));
  LIns [1;2;3;4;5;6;7;0]%nat (KwSet 0xc67178f2 15 (LAdd4 (LW 15) (LS1 (LW 13)) (LW 8) (LS0 (LW 0))))].
(** avx2.rs:149-415 *)
Definition avx_sha256d_64_8way : list bytes -> list bytes -> list bytes :=
  d64_lanes 8 avx_init avx_add1 avx_init3 avx_out avx_rounds1 avx_rounds2 avx_rounds3.

(** * The choice of implementation *)
(** target_arch *)
Inductive arch := X86 | Aarch64 | OtherArch.
(** processor features *)
Inductive feature := Sse2 | Ssse3 | Sse41 | Sha | Avx | Avx2 | Sha2.
(** A build and the processor it runs on: the features [std] and [cpufeatures] of the crate, what
    std::is_x86_feature_detected and std::arch::is_aarch64_feature_detected answer, what the cpufeatures crate answers for a feature,
    and what the processor has. *)
Record machine := mk_machine { m_arch : arch; m_std : bool; m_cpufeatures : bool; m_std_detects : feature -> bool; m_cpuf_detects : feature -> bool; m_has : feature -> bool }.
(** #[target_feature(enable = ..)]: calling the function is undefined behaviour when the processor lacks a feature *)
Definition needs {A} (m : machine) (fs : list feature) (r : rust A) : rust A := if forallb (m_has m) fs then r else Panic.
(** x86_shani.rs:21, 280, arm_sha2.rs:16, 209, sse41.rs:129, avx2.rs:147 *)
Definition ni_features : list feature := [Sha; Sse2; Ssse3; Sse41].
Definition arm_features : list feature := [Sha2].
Definition sse_features : list feature := [Sse2; Ssse3; Sse41].
Definition avx_features : list feature := [Avx; Avx2].
Definition on_x86 (m : machine) : bool := match m_arch m with X86 => true | _ => false end.
Definition on_arm (m : machine) : bool := match m_arch m with Aarch64 => true | _ => false end.
(** the conditions of mod.rs:310-313, 323 (cpuid_sha256_x86 :42-45), 332, 341 (cpuid_sha256_aarch64 :33-36), 431 (cpuid_avx2_x86
    :56-59), 418, 445-447 and 461 (cpuid_sse41_x86 :49-52) *)
Definition std_ni (m : machine) : bool := m_std m && on_x86 m && (m_std_detects m Sse41 && m_std_detects m Sha && m_std_detects m Sse2 && m_std_detects m Ssse3).
Definition cpuf_ni (m : machine) : bool := m_cpufeatures m && on_x86 m && (m_cpuf_detects m Sha && m_cpuf_detects m Sse2 && m_cpuf_detects m Ssse3 && m_cpuf_detects m Sse41).
Definition std_arm (m : machine) : bool := m_std m && on_arm m && m_std_detects m Sha2.
Definition cpuf_arm (m : machine) : bool := m_cpufeatures m && on_arm m && m_cpuf_detects m Sha2.
Definition std_avx (m : machine) : bool := m_std m && on_x86 m && (m_std_detects m Avx && m_std_detects m Avx2).
Definition cpuf_avx (m : machine) : bool := m_cpufeatures m && on_x86 m && (m_cpuf_detects m Avx && m_cpuf_detects m Avx2).
Definition std_sse (m : machine) : bool := m_std m && on_x86 m && (m_std_detects m Sse41 && m_std_detects m Sse2 && m_std_detects m Ssse3).
Definition cpuf_sse (m : machine) : bool := m_cpufeatures m && on_x86 m && (m_cpuf_detects m Sse2 && m_cpuf_detects m Ssse3 && m_cpuf_detects m Sse41).
(** HashEngine::process_blocks mod.rs:306-349; software_process_block is [MHash.process_blocks] with [sha256_comp] *)
Definition process_blocks_on (m : machine) (state : list N) (blocks : bytes) : rust (list N) :=
  if std_ni m then needs m ni_features (ni_process_blocks state blocks)
  else if cpuf_ni m then needs m ni_features (ni_process_blocks state blocks)
  else if std_arm m then needs m arm_features (arm_process_blocks state blocks)
  else if cpuf_arm m then needs m arm_features (arm_process_blocks state blocks)
  else process_blocks 64 sha256_comp state blocks.
(** one [while count - i >= n] loop of HashEngine::sha256d_64: [i] inputs are done *)
Fixpoint many_loop (fuel : nat) (n : N) (way : list bytes -> list bytes -> rust (list bytes)) (inputs outs : list bytes) (i : N) : rust (list bytes * N) :=
  match fuel with
  | O => Panic
  | S f =>
      if n <=? lenN inputs - i then
        rbind (way (takeN n (dropN i outs)) (takeN n (dropN i inputs))) (fun o =>
        many_loop f n way inputs (takeN i outs ++ o ++ dropN (i + n) outs) (i + n))
      else Ret (outs, i)
  end.
(** the loop guarded by a condition *)
Definition many_if (c : bool) (n : N) (way : list bytes -> list bytes -> rust (list bytes)) (inputs : list bytes) (oi : list bytes * N) : rust (list bytes * N) :=
  if c then many_loop (S (List.length inputs)) n way inputs (fst oi) (snd oi) else Ret oi.
(** the software loop mod.rs:472-475: one input at a time *)
Definition soft_way (outs inputs : list bytes) : rust (list bytes) := Ret (map software_sha256d_64 inputs).
(** HashEngine::sha256d_64 mod.rs:351-476, with the outputs as they were before the call *)
Definition sha256d_64_on (m : machine) (outs inputs : list bytes) : rust (list bytes) :=
  if negb (lenN outs =? lenN inputs) then Panic else
  let ni o i := needs m ni_features (ni_sha256d_64_2way o i) in
  let arm o i := needs m arm_features (arm_sha256d_64_2way o i) in
  let avx o i := needs m avx_features (Ret (avx_sha256d_64_8way o i)) in
  let sse o i := needs m sse_features (Ret (sse_sha256d_64_4way o i)) in
  rbind (many_if (std_ni m) 2 ni inputs (outs, 0)) (fun oi =>
  rbind (many_if (cpuf_ni m) 2 ni inputs oi) (fun oi =>
  rbind (many_if (std_arm m) 2 arm inputs oi) (fun oi =>
  rbind (many_if (cpuf_arm m) 2 arm inputs oi) (fun oi =>
  rbind (many_if (std_avx m) 8 avx inputs oi) (fun oi =>
  rbind (many_if (cpuf_avx m) 8 avx inputs oi) (fun oi =>
  rbind (many_if (std_sse m) 4 sse inputs oi) (fun oi =>
  rbind (many_if (cpuf_sse m) 4 sse inputs oi) (fun oi =>
  rbind (many_if true 1 soft_way inputs oi) (fun oi => Ret (fst oi)))))))))).

(** * The engine on a machine *)
Section EngineOn.
  Variable m : machine.
  (** input: internal_macros.rs:203-230 *)
  Definition input_on (e : engine256) (inp : bytes) : rust engine256 :=
    let buf_idx := incomplete_block_len 64 e in
    rbind (u64_ck (e_n e + lenN inp)) (fun n =>
    if buf_idx + lenN inp <? 64 then
      rbind (copy_in buf_idx inp (e_buf e)) (fun b => Ret (mk_engine b (e_h e) n))
    else
      rbind (if 0 <? buf_idx then
               let needed := 64 - buf_idx in
               if needed <=? lenN inp then
                 rbind (copy_in buf_idx (takeN needed inp) (e_buf e)) (fun b =>
                 rbind (process_blocks_on m (e_h e) b) (fun h => Ret (b, h, dropN needed inp)))
               else Panic
             else Ret (e_buf e, e_h e, inp)) (fun '(b, h, inp) =>
      let full_blocks := lenN inp / 64 * 64 in
      rbind (if 0 <? full_blocks then process_blocks_on m h (takeN full_blocks inp) else Ret h) (fun h =>
      rbind (copy_in 0 (dropN full_blocks inp) b) (fun b => Ret (mk_engine b h n))))).
  (** Hash::from_engine: sha256/mod.rs:33-51 *)
  Definition finalize_on (e : engine256) : rust bytes :=
    let buf_idx := incomplete_block_len 64 e in
    rbind (copy_in buf_idx [128] (e_buf e)) (fun b =>
    rbind (fill_from (buf_idx + 1) b) (fun b =>
    rbind (if 64 - 8 <=? buf_idx then
             rbind (process_blocks_on m (e_h e) b) (fun h =>
             rbind (fill_to (64 - 8) b) (fun b => Ret (b, h)))
           else Ret (b, e_h e)) (fun '(b, h) =>
    rbind (u64_ck (8 * e_n e)) (fun bits =>
    rbind (copy_in (64 - 8) (be_bytes 8 bits) b) (fun b =>
    rbind (process_blocks_on m h b) (fun h => Ret (to_be_words 4 h))))))).
  (** hash_byte_chunks: internal_macros.rs:82-94 *)
  Fixpoint input_all_on (e : engine256) (pieces : list bytes) : rust engine256 :=
    match pieces with [] => Ret e | p :: ps => rbind (input_on e p) (fun e => input_all_on e ps) end.
  Definition hash_chunks_on (pieces : list bytes) : rust bytes := rbind (input_all_on sha256_new pieces) finalize_on.
  (** sha256d::Hash::from_engine sha256d/mod.rs:25-32 *)
  Definition hash_chunks_d_on (pieces : list bytes) : rust bytes := rbind (hash_chunks_on pieces) (fun h => hash_chunks_on [h]).
End EngineOn.
