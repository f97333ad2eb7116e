(** Model of the chacha20_poly1305 crate: chacha20_poly1305/src/{lib,chacha20,poly1305}.rs.  The
    [chacha20_poly1305_fuzz] configuration is not modelled.  Fixed-size arrays are lists; loops with a constant
    bound over them are written out. *)
From Verif Require Import Base MDec MHash MSha2.
Local Open Scope N_scope.

(** * ChaCha20 *)
(** U32x4 chacha20.rs:68 *)
Record u32x4 := mk_x4 { x0 : N; x1 : N; x2 : N; x3 : N }.
Definition map2_x4 (f : N -> N -> N) (a b : u32x4) : u32x4 := mk_x4 (f (x0 a) (x0 b)) (f (x1 a) (x1 b)) (f (x2 a) (x2 b)) (f (x3 a) (x3 b)).
(** wrapping_add :72-78, bitxor :129-135, rotate_left :81-87 *)
Definition x4_add : u32x4 -> u32x4 -> u32x4 := map2_x4 (wadd 32).
Definition x4_xor : u32x4 -> u32x4 -> u32x4 := map2_x4 N.lxor.
Definition x4_rotl (n : N) (a : u32x4) : u32x4 := mk_x4 (rotl 32 n (x0 a)) (rotl 32 n (x1 a)) (rotl 32 n (x2 a)) (rotl 32 n (x3 a)).
(** rotate_elements_left :90-100 and rotate_elements_right :103-113 *)
Definition rotate_elements_left (n : N) (a : u32x4) : u32x4 :=
  match n with 1 => mk_x4 (x1 a) (x2 a) (x3 a) (x0 a) | 2 => mk_x4 (x2 a) (x3 a) (x0 a) (x1 a) | 3 => mk_x4 (x3 a) (x0 a) (x1 a) (x2 a) | _ => a end.
Definition rotate_elements_right (n : N) (a : u32x4) : u32x4 :=
  match n with 1 => mk_x4 (x3 a) (x0 a) (x1 a) (x2 a) | 2 => mk_x4 (x2 a) (x3 a) (x0 a) (x1 a) | 3 => mk_x4 (x1 a) (x2 a) (x3 a) (x0 a) | _ => a end.
(** to_le_bytes :116-122 *)
Definition x4_bytes (a : u32x4) : bytes := le_bytes 4 (x0 a) ++ le_bytes 4 (x1 a) ++ le_bytes 4 (x2 a) ++ le_bytes 4 (x3 a).
(** State :147-149 *)
Record chacha_state := mk_cs { row_a : u32x4; row_b : u32x4; row_c : u32x4; row_d : u32x4 }.
(** u32::from_le_bytes of the four bytes at [i] *)
Definition le32 (l : bytes) (i : N) : N := le_val (takeN 4 (dropN i l)).
(** State::new :153-176 *)
Definition chacha_state_new (key nonce : bytes) (count : N) : chacha_state :=
  mk_cs (mk_x4 0x61707865 0x3320646e 0x79622d32 0x6b206574)
    (mk_x4 (le32 key 0) (le32 key 4) (le32 key 8) (le32 key 12)) (mk_x4 (le32 key 16) (le32 key 20) (le32 key 24) (le32 key 28))
    (mk_x4 count (le32 nonce 0) (le32 nonce 4) (le32 nonce 8)).
(** quarter_round :180-194, on whole rows *)
Definition x4_quarter_round (a b c d : u32x4) : chacha_state :=
  let a := x4_add a b in
  let d := x4_rotl 16 (x4_xor d a) in
  let c := x4_add c d in
  let b := x4_rotl 12 (x4_xor b c) in
  let a := x4_add a b in
  let d := x4_rotl 8 (x4_xor d a) in
  let c := x4_add c d in
  let b := x4_rotl 7 (x4_xor b c) in
  mk_cs a b c d.
(** double_round :206-223 *)
Definition double_round (s : chacha_state) : chacha_state :=
  let s := x4_quarter_round (row_a s) (row_b s) (row_c s) (row_d s) in
  let b := rotate_elements_left 1 (row_b s) in
  let c := rotate_elements_left 2 (row_c s) in
  let d := rotate_elements_left 3 (row_d s) in
  let s := x4_quarter_round (row_a s) b c d in
  mk_cs (row_a s) (rotate_elements_right 1 (row_b s)) (rotate_elements_right 2 (row_c s)) (rotate_elements_right 3 (row_d s)).
(** chacha_block :227-238 *)
Definition chacha_block (m : chacha_state) : chacha_state :=
  let w := Nat.iter 10 double_round m in
  mk_cs (x4_add (row_a w) (row_a m)) (x4_add (row_b w) (row_b m)) (x4_add (row_c w) (row_c m)) (x4_add (row_d w) (row_d m)).
(** keystream :242-248 *)
Definition chacha_keystream (m : chacha_state) : bytes := x4_bytes (row_a m) ++ x4_bytes (row_b m) ++ x4_bytes (row_c m) ++ x4_bytes (row_d m).
(** ChaCha20 :256-265 *)
Record chacha := mk_chacha { cc_key : bytes; cc_nonce : bytes; cc_block : N; cc_off : N }.
(** new :269-273, new_from_block :276-278 *)
Definition chacha_new (key nonce : bytes) (seek : N) : chacha := mk_chacha key nonce (seek / 64) (seek mod 64).
Definition chacha_new_from_block (key nonce : bytes) (block : N) : chacha := mk_chacha key nonce block 0.
(** keystream_at_block :283-287, get_keystream :346 *)
Definition keystream_at_block (c : chacha) (block : N) : bytes := chacha_keystream (chacha_block (chacha_state_new (cc_key c) (cc_nonce c) block)).
Definition get_keystream : chacha -> N -> bytes := keystream_at_block.
(** seek :349-352, block :355-358 *)
Definition chacha_seek (c : chacha) (seek : N) : chacha := mk_chacha (cc_key c) (cc_nonce c) (seek / 64) (seek mod 64).
Definition chacha_set_block (c : chacha) (block : N) : chacha := mk_chacha (cc_key c) (cc_nonce c) block 0.
(** for (b, k) in buffer.iter_mut().zip(keystream) { *b ^= *k } : the buffer afterwards *)
Fixpoint xor_stream (buf ks : bytes) : bytes :=
  match buf, ks with b :: buf', k :: ks' => N.lxor b k :: xor_stream buf' ks' | _, _ => buf end.
(** a u32 result that must not overflow *)
Definition u32_ck (v : N) : rust N := if v <? 2 ^ 32 then Ret v else Panic.
(** the loop :322-328 over the chunks of 64 bytes *)
Fixpoint chacha_chunks (c : chacha) (chunks : list bytes) : rust (chacha * bytes) :=
  match chunks with
  | [] => Ret (c, [])
  | ch :: chs =>
      let out := xor_stream ch (keystream_at_block c (cc_block c)) in
      rbind (u32_ck (cc_block c + 1)) (fun b =>
      rbind (chacha_chunks (mk_chacha (cc_key c) (cc_nonce c) b (cc_off c)) chs) (fun '(c, rest) => Ret (c, out ++ rest)))
  end.
(** :320-338, the part after an aligned position *)
Definition chacha_aligned (c : chacha) (buf : bytes) : rust (chacha * bytes) :=
  let n := lenN buf / 64 * 64 in
  rbind (chacha_chunks c (chunks_exact 64 (takeN n buf))) (fun '(c, out) =>
  let remainder := dropN n buf in
  if lenN remainder =? 0 then Ret (c, out)
  else Ret (mk_chacha (cc_key c) (cc_nonce c) (cc_block c) (lenN remainder), out ++ xor_stream remainder (keystream_at_block c (cc_block c)))).
(** apply_keystream :295-339; returns the cipher and the buffer *)
Definition apply_keystream (c : chacha) (buf : bytes) : rust (chacha * bytes) :=
  if negb (cc_off c =? 0) then
    if 64 <? cc_off c then Panic
    else
      let until_aligned := 64 - cc_off c in
      let n := N.min (lenN buf) until_aligned in
      let ks := keystream_at_block c (cc_block c) in
      let out := xor_stream (takeN n buf) (dropN (cc_off c) ks) in
      if n <? until_aligned then Ret (mk_chacha (cc_key c) (cc_nonce c) (cc_block c) (cc_off c + n), out ++ dropN n buf)
      else
        rbind (u32_ck (cc_block c + 1)) (fun b =>
        rbind (chacha_aligned (mk_chacha (cc_key c) (cc_nonce c) b 0) (dropN n buf)) (fun '(c, rest) => Ret (c, out ++ rest)))
  else chacha_aligned c buf.

(** * Poly1305 *)
(** Poly1305 poly1305.rs:17-28 *)
Record poly := mk_poly { p_r : list N; p_s : list N; p_acc : list N; p_left : bytes; p_len : N }.
(** new :33-53 *)
Definition poly_new (key : bytes) : poly :=
  mk_poly [N.land (le32 key 0) 0x3ffffff; N.land (N.shiftr (le32 key 3) 2) 0x3ffff03; N.land (N.shiftr (le32 key 6) 4) 0x3ffc0ff;
           N.land (N.shiftr (le32 key 9) 6) 0x3f03fff; N.land (N.shiftr (le32 key 12) 8) 0xfffff]
    [le32 key 16; le32 key 20; le32 key 24; le32 key 28] (repeat 0 5) (repeat 0 16) 0.
(** prepare_padded_message_slice :214-231 *)
Definition BITMASK : N := 0x3ffffff.
Definition prepare (msg : bytes) (is_last : bool) : rust (list N) :=
  let hi := if is_last then 0 else N.shiftl 1 24 in
  rbind (copy_in 0 msg (repeat 0 17)) (fun f =>
  rbind (copy_in (lenN msg) [1] f) (fun f =>
  Ret [N.land (le32 f 0) BITMASK; N.land (N.shiftr (le32 f 3) 2) BITMASK; N.land (N.shiftr (le32 f 6) 4) BITMASK;
       N.land (N.shiftr (le32 f 9) 6) BITMASK; N.lor (N.shiftr (le32 f 12) 8) hi])).
(** the additions [self.acc[i] += b] :81-83, :96-98, :124-126 *)
Fixpoint add_limbs (acc ms : list N) : rust (list N) :=
  match acc, ms with
  | a :: acc', m :: ms' => rbind (u32_ck (a + m)) (fun s => rbind (add_limbs acc' ms') (fun l => Ret (s :: l)))
  | _, [] => Ret acc
  | [], _ :: _ => Panic
  end.
(** one term and one sum of the products :190-197 *)
Definition term (r acc : list N) (j i : nat) : rust N :=
  let modulus := if (j <? i)%nat then 5 else 1 in
  let start := ((5 - i) mod 5)%nat in
  rbind (u64_ck (modulus * nth i r 0)) (fun p => u64_ck (p * nth ((start + j) mod 5)%nat acc 0)).
Definition dot (r acc : list N) (j : nat) : rust N :=
  fold_left (fun t i => rbind t (fun t => rbind (term r acc j i) (fun p => u64_ck (t + p)))) (seq 0 5) (Ret 0).
(** r_times_a :186-210, the new accumulator *)
Definition r_times_a (r acc : list N) : rust (list N) :=
  rbind (dot r acc 0) (fun t0 => rbind (dot r acc 1) (fun t1 => rbind (dot r acc 2) (fun t2 =>
  rbind (dot r acc 3) (fun t3 => rbind (dot r acc 4) (fun t4 =>
  rbind (u64_ck (t1 + N.shiftr t0 26)) (fun t1 => rbind (u64_ck (t2 + N.shiftr t1 26)) (fun t2 =>
  rbind (u64_ck (t3 + N.shiftr t2 26)) (fun t3 => rbind (u64_ck (t4 + N.shiftr t3 26)) (fun t4 =>
  let low t := N.land (t mod 2 ^ 32) BITMASK in
  rbind (u32_ck (N.shiftr t4 26 mod 2 ^ 32 * 5)) (fun c =>
  rbind (u32_ck (low t0 + c)) (fun a0 =>
  rbind (u32_ck (low t1 + N.shiftr a0 26)) (fun a1 =>
  Ret [N.land a0 BITMASK; a1; low t2; low t3; low t4])))))))))))).
(** add a block and multiply: :80-84, :94-99, :122-127 *)
Definition poly_block (r acc : list N) (msg : bytes) (is_last : bool) : rust (list N) :=
  rbind (prepare msg is_last) (fun ms => rbind (add_limbs acc ms) (r_times_a r)).
(** the loop :93-101, over the slices [i * 16..(i + 1) * 16] for i < len / 16 *)
Fixpoint poly_blocks (r acc : list N) (blocks : list bytes) : rust (list N) :=
  match blocks with [] => Ret acc | b :: bs => rbind (poly_block r acc b false) (fun acc => poly_blocks r acc bs) end.
(** input :69-111 *)
Definition poly_input (p : poly) (message : bytes) : rust poly :=
  rbind (if 16 <=? p_len p + lenN message then if p_len p <=? 16 then Ret (16 - p_len p) else Panic else Ret 0) (fun fill =>
  rbind (if 0 <? fill then
           if fill <=? lenN message then
             rbind (copy_in (p_len p) (takeN fill message) (p_left p)) (fun l =>
             rbind (poly_block (p_r p) (p_acc p) l false) (fun acc => Ret (mk_poly (p_r p) (p_s p) acc l 0)))
           else Panic
         else Ret p) (fun p =>
  let remaining := dropN fill message in
  rbind (poly_blocks (p_r p) (p_acc p) (chunks_exact 16 remaining)) (fun acc =>
  let k := lenN remaining mod 16 in
  if 0 <? k then
    let i := lenN remaining - k in
    rbind (copy_in (p_len p) (dropN i remaining) (p_left p)) (fun l => Ret (mk_poly (p_r p) (p_s p) acc l (p_len p + k)))
  else Ret (mk_poly (p_r p) (p_s p) acc (p_left p) (p_len p))))).
(** u32 subtraction that wraps, and the select of :154 *)
Definition wsub32 (a b : N) : N := (a + 2 ^ 32 - b) mod 2 ^ 32.
Definition select (mask t a : N) : N := N.lor (N.land t mask) (N.land a (2 ^ 32 - 1 - mask)).
(** u32 shift left: bits shifted out are lost *)
Definition shl32 (a k : N) : N := N.shiftl a k mod 2 ^ 32.
(** the reduction of the accumulator in tag :131-155 *)
Definition poly_reduce (acc : list N) : rust (list N) :=
  match acc with
  | [a0; a1; a2; a3; a4] =>
      rbind (u32_ck (a2 + N.shiftr a1 26)) (fun a2 => rbind (u32_ck (a3 + N.shiftr a2 26)) (fun a3 => rbind (u32_ck (a4 + N.shiftr a3 26)) (fun a4 =>
      rbind (u32_ck (N.shiftr a4 26 * 5)) (fun c => rbind (u32_ck (a0 + c)) (fun a0 => rbind (u32_ck (a1 + N.shiftr a0 26)) (fun a1 =>
      let a0 := N.land a0 BITMASK in let a1 := N.land a1 BITMASK in let a2 := N.land a2 BITMASK in let a3 := N.land a3 BITMASK in let a4 := N.land a4 BITMASK in
      rbind (u32_ck (a0 + 5)) (fun t0 =>
      let t4 := wsub32 a4 (2 ^ 26) in
      rbind (u32_ck (a1 + N.shiftr t0 26)) (fun t1 => rbind (u32_ck (a2 + N.shiftr t1 26)) (fun t2 => rbind (u32_ck (a3 + N.shiftr t2 26)) (fun t3 =>
      let t4 := wadd 32 t4 (N.shiftr t3 26) in
      let mask := wsub32 (N.shiftr t4 31) 1 in
      Ret [select mask (N.land t0 BITMASK) a0; select mask (N.land t1 BITMASK) a1; select mask (N.land t2 BITMASK) a2; select mask (N.land t3 BITMASK) a3; select mask t4 a4]))))))))))
  | _ => Panic
  end.
(** the packing and the addition of s in tag :157-179 *)
Definition poly_out (acc s : list N) : rust bytes :=
  match acc, s with
  | [a0; a1; a2; a3; a4], [s0; s1; s2; s3] =>
      let w0 := N.lor a0 (shl32 a1 26) in
      let w1 := N.lor (N.shiftr a1 6) (shl32 a2 20) in
      let w2 := N.lor (N.shiftr a2 12) (shl32 a3 14) in
      let w3 := N.lor (N.shiftr a3 18) (shl32 a4 8) in
      rbind (u64_ck (w0 + s0)) (fun t0 => rbind (u64_ck (w1 + s1)) (fun t1 => rbind (u64_ck (w2 + s2)) (fun t2 => rbind (u64_ck (w3 + s3)) (fun t3 =>
      rbind (u64_ck (t1 + N.shiftr t0 32)) (fun t1 => rbind (u64_ck (t2 + N.shiftr t1 32)) (fun t2 => rbind (u64_ck (t3 + N.shiftr t2 32)) (fun t3 =>
      Ret (le_bytes 4 (t0 mod 2 ^ 32) ++ le_bytes 4 (t1 mod 2 ^ 32) ++ le_bytes 4 (t2 mod 2 ^ 32) ++ le_bytes 4 (t3 mod 2 ^ 32)))))))))
  | _, _ => Panic
  end.
(** tag :119-180 *)
Definition poly_tag (p : poly) : rust bytes :=
  rbind (if 0 <? p_len p then if p_len p <=? lenN (p_left p) then poly_block (p_r p) (p_acc p) (takeN (p_len p) (p_left p)) true else Panic else Ret (p_acc p)) (fun acc =>
  rbind (poly_reduce acc) (fun acc => poly_out acc (p_s p))).
(** several inputs in a row *)
Fixpoint poly_feed (p : poly) (pieces : list bytes) : rust poly :=
  match pieces with [] => Ret p | x :: xs => rbind (poly_input p x) (fun p => poly_feed p xs) end.

(** * The AEAD lib.rs *)
(** encode_lengths :156-165 *)
Definition encode_lengths (aad_len content_len : N) : bytes := le_bytes 8 aad_len ++ le_bytes 8 content_len.
(** constant_time_eq :147-153 *)
Definition constant_time_eq (a b : bytes) : bool := fold_left (fun res p => N.lor res (N.lxor (fst p) (snd p))) (combine a b) 0 =? 0.
(** the authentication shared by encrypt :68-85 and decrypt :116-132 *)
Definition aead_tag (poly_key content : bytes) (aad : option bytes) : rust bytes :=
  let poly := poly_new poly_key in
  let aad := match aad with Some a => a | None => [] end in
  rbind (poly_input poly aad) (fun poly =>
  rbind (if 0 <? lenN aad mod 16 then poly_input poly (repeat 0 (N.to_nat (16 - lenN aad mod 16))) else Ret poly) (fun poly =>
  rbind (poly_input poly content) (fun poly =>
  rbind (if 0 <? lenN content mod 16 then poly_input poly (repeat 0 (N.to_nat (16 - lenN content mod 16))) else Ret poly) (fun poly =>
  rbind (poly_input poly (encode_lengths (lenN aad) (lenN content))) poly_tag)))).
(** encrypt :56-86; returns the buffer and the tag *)
Definition encrypt (key nonce content : bytes) (aad : option bytes) : rust (bytes * bytes) :=
  rbind (apply_keystream (chacha_new_from_block key nonce 1) content) (fun '(c, content) =>
  let poly_key := takeN 32 (get_keystream c 0) in
  rbind (aead_tag poly_key content aad) (fun tag => Ret (content, tag))).
(** decrypt :100-141; returns the buffer and whether it succeeded *)
Definition decrypt (key nonce content tag : bytes) (aad : option bytes) : rust (bytes * bool) :=
  let poly_key := takeN 32 (get_keystream (chacha_new_from_block key nonce 0) 0) in
  rbind (aead_tag poly_key content aad) (fun derived_tag =>
  if constant_time_eq derived_tag tag then
    rbind (apply_keystream (chacha_new_from_block key nonce 1) content) (fun '(_, content) => Ret (content, true))
  else Ret (content, false)).
