(** SHA-1, RIPEMD-160, SHA3-256 and hash160: hashes/src/sha1/, hashes/src/ripemd160/, hashes/src/sha3_256/,
    hashes/src/hash160/. *)
From Verif Require Import Base MDec MHash MSha2.
Local Open Scope N_scope.

(** !x on a word of [w] bits *)
Definition wnot (w x : N) : N := 2 ^ w - 1 - x.
(** a chain of xors of the table [w] *)
Definition at_ (w : list N) (i : nat) : N := nth i w 0.

(** * SHA-1 *)
(** sha1/mod.rs:56 *)
Definition sha1_iv : list N := [0x67452301; 0xefcdab89; 0x98badcfe; 0x10325476; 0xc3d2e1f0].
(** the loop sha1/crypto.rs:20-22; w[i] is assigned for i = 16, ..., 79 in this order *)
Fixpoint sha1_expand (n i : nat) (w : list N) : list N :=
  match n with
  | O => w
  | S n' =>
      let v := rotl 32 1 (N.lxor (N.lxor (N.lxor (at_ w (i - 3)) (at_ w (i - 8))) (at_ w (i - 14))) (at_ w (i - 16))) in
      sha1_expand n' (S i) (upd i v w)
  end.
(** :31-37 *)
Definition sha1_fk (i : nat) (b c d : N) : N * N :=
  if (i <? 20)%nat then (N.lor (N.land b c) (N.land (wnot 32 b) d), 0x5a827999)
  else if (i <? 40)%nat then (N.lxor (N.lxor b c) d, 0x6ed9eba1)
  else if (i <? 60)%nat then (N.lor (N.lor (N.land b c) (N.land b d)) (N.land c d), 0x8f1bbcdc)
  else (N.lxor (N.lxor b c) d, 0xca62c1d6).
(** the loop :30-50 *)
Fixpoint sha1_loop (i : nat) (w : list N) (r : N * N * N * N * N) : N * N * N * N * N :=
  match w with
  | [] => r
  | wi :: w' =>
      let '(a, b, c, d, e) := r in
      let '(f, k) := sha1_fk i b c d in
      let new_a := wadd 32 (wadd 32 (wadd 32 (wadd 32 (rotl 32 5 a) f) e) k) wi in
      sha1_loop (S i) w' (new_a, a, rotl 32 30 b, c, d)
  end.
(** the body of process_blocks :15-57 *)
Definition sha1_comp (st : list N) (block : bytes) : list N :=
  let w := be_words 4 block ++ repeat 0 64 in
  let w := sha1_expand 64 16 w in
  match st with
  | [s0; s1; s2; s3; s4] =>
      let '(a, b, c, d, e) := sha1_loop 0 w (s0, s1, s2, s3, s4) in
      [wadd 32 s0 a; wadd 32 s1 b; wadd 32 s2 c; wadd 32 s3 d; wadd 32 s4 e]
  | _ => st
  end.
Definition sha1_input : engine256 -> bytes -> rust engine256 := input 64 sha1_comp.
(** from_engine sha1/mod.rs:23-39, midstate :63-69 *)
Definition sha1_finalize (e : engine256) : rust bytes :=
  rbind (finalize_md 64 sha1_comp 8 (be_bytes 8) e) (fun st => Ret (to_be_words 4 st)).

(** * RIPEMD-160 *)
(** one row of process_block!: h_ordering, data_index, roll_shift *)
Inductive rmd_row := RRow (ordering : list nat) (idx : nat) (bits : N).
(** ripemd160/crypto.rs:149-164 *)
Definition rmd_round1 : list rmd_row := [
  RRow [0; 1; 2; 3; 4]%nat 0%nat 11;
  RRow [4; 0; 1; 2; 3]%nat 1%nat 14;
  RRow [3; 4; 0; 1; 2]%nat 2%nat 15;
  RRow [2; 3; 4; 0; 1]%nat 3%nat 12;
  RRow [1; 2; 3; 4; 0]%nat 4%nat 5;
  RRow [0; 1; 2; 3; 4]%nat 5%nat 8;
  RRow [4; 0; 1; 2; 3]%nat 6%nat 7;
  RRow [3; 4; 0; 1; 2]%nat 7%nat 9;
  RRow [2; 3; 4; 0; 1]%nat 8%nat 11;
  RRow [1; 2; 3; 4; 0]%nat 9%nat 13;
  RRow [0; 1; 2; 3; 4]%nat 10%nat 14;
  RRow [4; 0; 1; 2; 3]%nat 11%nat 15;
  RRow [3; 4; 0; 1; 2]%nat 12%nat 6;
  RRow [2; 3; 4; 0; 1]%nat 13%nat 7;
  RRow [1; 2; 3; 4; 0]%nat 14%nat 9;
  RRow [0; 1; 2; 3; 4]%nat 15%nat 8].
(** ripemd160/crypto.rs:167-182 *)
Definition rmd_round2 : list rmd_row := [
  RRow [4; 0; 1; 2; 3]%nat 7%nat 7;
  RRow [3; 4; 0; 1; 2]%nat 4%nat 6;
  RRow [2; 3; 4; 0; 1]%nat 13%nat 8;
  RRow [1; 2; 3; 4; 0]%nat 1%nat 13;
  RRow [0; 1; 2; 3; 4]%nat 10%nat 11;
  RRow [4; 0; 1; 2; 3]%nat 6%nat 9;
  RRow [3; 4; 0; 1; 2]%nat 15%nat 7;
  RRow [2; 3; 4; 0; 1]%nat 3%nat 15;
  RRow [1; 2; 3; 4; 0]%nat 12%nat 7;
  RRow [0; 1; 2; 3; 4]%nat 0%nat 12;
  RRow [4; 0; 1; 2; 3]%nat 9%nat 15;
  RRow [3; 4; 0; 1; 2]%nat 5%nat 9;
  RRow [2; 3; 4; 0; 1]%nat 2%nat 11;
  RRow [1; 2; 3; 4; 0]%nat 14%nat 7;
  RRow [0; 1; 2; 3; 4]%nat 11%nat 13;
  RRow [4; 0; 1; 2; 3]%nat 8%nat 12].
(** ripemd160/crypto.rs:185-200 *)
Definition rmd_round3 : list rmd_row := [
  RRow [3; 4; 0; 1; 2]%nat 3%nat 11;
  RRow [2; 3; 4; 0; 1]%nat 10%nat 13;
  RRow [1; 2; 3; 4; 0]%nat 14%nat 6;
  RRow [0; 1; 2; 3; 4]%nat 4%nat 7;
  RRow [4; 0; 1; 2; 3]%nat 9%nat 14;
  RRow [3; 4; 0; 1; 2]%nat 15%nat 9;
  RRow [2; 3; 4; 0; 1]%nat 8%nat 13;
  RRow [1; 2; 3; 4; 0]%nat 1%nat 15;
  RRow [0; 1; 2; 3; 4]%nat 2%nat 14;
  RRow [4; 0; 1; 2; 3]%nat 7%nat 8;
  RRow [3; 4; 0; 1; 2]%nat 0%nat 13;
  RRow [2; 3; 4; 0; 1]%nat 6%nat 6;
  RRow [1; 2; 3; 4; 0]%nat 13%nat 5;
  RRow [0; 1; 2; 3; 4]%nat 11%nat 12;
  RRow [4; 0; 1; 2; 3]%nat 5%nat 7;
  RRow [3; 4; 0; 1; 2]%nat 12%nat 5].
(** ripemd160/crypto.rs:203-218 *)
Definition rmd_round4 : list rmd_row := [
  RRow [2; 3; 4; 0; 1]%nat 1%nat 11;
  RRow [1; 2; 3; 4; 0]%nat 9%nat 12;
  RRow [0; 1; 2; 3; 4]%nat 11%nat 14;
  RRow [4; 0; 1; 2; 3]%nat 10%nat 15;
  RRow [3; 4; 0; 1; 2]%nat 0%nat 14;
  RRow [2; 3; 4; 0; 1]%nat 8%nat 15;
  RRow [1; 2; 3; 4; 0]%nat 12%nat 9;
  RRow [0; 1; 2; 3; 4]%nat 4%nat 8;
  RRow [4; 0; 1; 2; 3]%nat 13%nat 9;
  RRow [3; 4; 0; 1; 2]%nat 3%nat 14;
  RRow [2; 3; 4; 0; 1]%nat 7%nat 5;
  RRow [1; 2; 3; 4; 0]%nat 15%nat 6;
  RRow [0; 1; 2; 3; 4]%nat 14%nat 8;
  RRow [4; 0; 1; 2; 3]%nat 5%nat 6;
  RRow [3; 4; 0; 1; 2]%nat 6%nat 5;
  RRow [2; 3; 4; 0; 1]%nat 2%nat 12].
(** ripemd160/crypto.rs:221-236 *)
Definition rmd_round5 : list rmd_row := [
  RRow [1; 2; 3; 4; 0]%nat 4%nat 9;
  RRow [0; 1; 2; 3; 4]%nat 0%nat 15;
  RRow [4; 0; 1; 2; 3]%nat 5%nat 5;
  RRow [3; 4; 0; 1; 2]%nat 9%nat 11;
  RRow [2; 3; 4; 0; 1]%nat 7%nat 6;
  RRow [1; 2; 3; 4; 0]%nat 12%nat 8;
  RRow [0; 1; 2; 3; 4]%nat 2%nat 13;
  RRow [4; 0; 1; 2; 3]%nat 10%nat 12;
  RRow [3; 4; 0; 1; 2]%nat 14%nat 5;
  RRow [2; 3; 4; 0; 1]%nat 1%nat 12;
  RRow [1; 2; 3; 4; 0]%nat 3%nat 13;
  RRow [0; 1; 2; 3; 4]%nat 8%nat 14;
  RRow [4; 0; 1; 2; 3]%nat 11%nat 11;
  RRow [3; 4; 0; 1; 2]%nat 6%nat 8;
  RRow [2; 3; 4; 0; 1]%nat 15%nat 5;
  RRow [1; 2; 3; 4; 0]%nat 13%nat 6].
(** ripemd160/crypto.rs:239-254 *)
Definition rmd_par_round1 : list rmd_row := [
  RRow [0; 1; 2; 3; 4]%nat 5%nat 8;
  RRow [4; 0; 1; 2; 3]%nat 14%nat 9;
  RRow [3; 4; 0; 1; 2]%nat 7%nat 9;
  RRow [2; 3; 4; 0; 1]%nat 0%nat 11;
  RRow [1; 2; 3; 4; 0]%nat 9%nat 13;
  RRow [0; 1; 2; 3; 4]%nat 2%nat 15;
  RRow [4; 0; 1; 2; 3]%nat 11%nat 15;
  RRow [3; 4; 0; 1; 2]%nat 4%nat 5;
  RRow [2; 3; 4; 0; 1]%nat 13%nat 7;
  RRow [1; 2; 3; 4; 0]%nat 6%nat 7;
  RRow [0; 1; 2; 3; 4]%nat 15%nat 8;
  RRow [4; 0; 1; 2; 3]%nat 8%nat 11;
  RRow [3; 4; 0; 1; 2]%nat 1%nat 14;
  RRow [2; 3; 4; 0; 1]%nat 10%nat 14;
  RRow [1; 2; 3; 4; 0]%nat 3%nat 12;
  RRow [0; 1; 2; 3; 4]%nat 12%nat 6].
(** ripemd160/crypto.rs:257-272 *)
Definition rmd_par_round2 : list rmd_row := [
  RRow [4; 0; 1; 2; 3]%nat 6%nat 9;
  RRow [3; 4; 0; 1; 2]%nat 11%nat 13;
  RRow [2; 3; 4; 0; 1]%nat 3%nat 15;
  RRow [1; 2; 3; 4; 0]%nat 7%nat 7;
  RRow [0; 1; 2; 3; 4]%nat 0%nat 12;
  RRow [4; 0; 1; 2; 3]%nat 13%nat 8;
  RRow [3; 4; 0; 1; 2]%nat 5%nat 9;
  RRow [2; 3; 4; 0; 1]%nat 10%nat 11;
  RRow [1; 2; 3; 4; 0]%nat 14%nat 7;
  RRow [0; 1; 2; 3; 4]%nat 15%nat 7;
  RRow [4; 0; 1; 2; 3]%nat 8%nat 12;
  RRow [3; 4; 0; 1; 2]%nat 12%nat 7;
  RRow [2; 3; 4; 0; 1]%nat 4%nat 6;
  RRow [1; 2; 3; 4; 0]%nat 9%nat 15;
  RRow [0; 1; 2; 3; 4]%nat 1%nat 13;
  RRow [4; 0; 1; 2; 3]%nat 2%nat 11].
(** ripemd160/crypto.rs:275-290 *)
Definition rmd_par_round3 : list rmd_row := [
  RRow [3; 4; 0; 1; 2]%nat 15%nat 9;
  RRow [2; 3; 4; 0; 1]%nat 5%nat 7;
  RRow [1; 2; 3; 4; 0]%nat 1%nat 15;
  RRow [0; 1; 2; 3; 4]%nat 3%nat 11;
  RRow [4; 0; 1; 2; 3]%nat 7%nat 8;
  RRow [3; 4; 0; 1; 2]%nat 14%nat 6;
  RRow [2; 3; 4; 0; 1]%nat 6%nat 6;
  RRow [1; 2; 3; 4; 0]%nat 9%nat 14;
  RRow [0; 1; 2; 3; 4]%nat 11%nat 12;
  RRow [4; 0; 1; 2; 3]%nat 8%nat 13;
  RRow [3; 4; 0; 1; 2]%nat 12%nat 5;
  RRow [2; 3; 4; 0; 1]%nat 2%nat 14;
  RRow [1; 2; 3; 4; 0]%nat 10%nat 13;
  RRow [0; 1; 2; 3; 4]%nat 0%nat 13;
  RRow [4; 0; 1; 2; 3]%nat 4%nat 7;
  RRow [3; 4; 0; 1; 2]%nat 13%nat 5].
(** ripemd160/crypto.rs:293-308 *)
Definition rmd_par_round4 : list rmd_row := [
  RRow [2; 3; 4; 0; 1]%nat 8%nat 15;
  RRow [1; 2; 3; 4; 0]%nat 6%nat 5;
  RRow [0; 1; 2; 3; 4]%nat 4%nat 8;
  RRow [4; 0; 1; 2; 3]%nat 1%nat 11;
  RRow [3; 4; 0; 1; 2]%nat 3%nat 14;
  RRow [2; 3; 4; 0; 1]%nat 11%nat 14;
  RRow [1; 2; 3; 4; 0]%nat 15%nat 6;
  RRow [0; 1; 2; 3; 4]%nat 0%nat 14;
  RRow [4; 0; 1; 2; 3]%nat 5%nat 6;
  RRow [3; 4; 0; 1; 2]%nat 12%nat 9;
  RRow [2; 3; 4; 0; 1]%nat 2%nat 12;
  RRow [1; 2; 3; 4; 0]%nat 13%nat 9;
  RRow [0; 1; 2; 3; 4]%nat 9%nat 12;
  RRow [4; 0; 1; 2; 3]%nat 7%nat 5;
  RRow [3; 4; 0; 1; 2]%nat 10%nat 15;
  RRow [2; 3; 4; 0; 1]%nat 14%nat 8].
(** ripemd160/crypto.rs:311-326 *)
Definition rmd_par_round5 : list rmd_row := [
  RRow [1; 2; 3; 4; 0]%nat 12%nat 8;
  RRow [0; 1; 2; 3; 4]%nat 15%nat 5;
  RRow [4; 0; 1; 2; 3]%nat 10%nat 12;
  RRow [3; 4; 0; 1; 2]%nat 4%nat 9;
  RRow [2; 3; 4; 0; 1]%nat 1%nat 12;
  RRow [1; 2; 3; 4; 0]%nat 5%nat 5;
  RRow [0; 1; 2; 3; 4]%nat 8%nat 14;
  RRow [4; 0; 1; 2; 3]%nat 7%nat 6;
  RRow [3; 4; 0; 1; 2]%nat 6%nat 8;
  RRow [2; 3; 4; 0; 1]%nat 2%nat 13;
  RRow [1; 2; 3; 4; 0]%nat 13%nat 6;
  RRow [0; 1; 2; 3; 4]%nat 14%nat 5;
  RRow [4; 0; 1; 2; 3]%nat 0%nat 15;
  RRow [3; 4; 0; 1; 2]%nat 3%nat 13;
  RRow [2; 3; 4; 0; 1]%nat 9%nat 11;
  RRow [1; 2; 3; 4; 0]%nat 11%nat 11].
(** round! ripemd160/crypto.rs:37-44 (and the small-hash version :16-33) *)
Definition rmd_round (f : N -> N -> N -> N) (add : N) (data : list N) (h : list N) (row : rmd_row) : list N :=
  match row with
  | RRow [a; b; c; d; e] idx bits =>
      let A := wadd 32 (wadd 32 (wadd 32 (at_ h a) (f (at_ h b) (at_ h c) (at_ h d))) (at_ data idx)) add in
      let A := wadd 32 (rotl 32 bits A) (at_ h e) in
      let h := upd a A h in
      upd c (rotl 32 10 (at_ h c)) h
  | _ => h
  end.
(** the Boolean functions :75, :80, :85, :90, :95 *)
Definition rmd_f1 (b c d : N) : N := N.lxor (N.lxor b c) d.
Definition rmd_f2 (b c d : N) : N := N.lor (N.land b c) (N.land (wnot 32 b) d).
Definition rmd_f3 (b c d : N) : N := N.lxor (N.lor b (wnot 32 c)) d.
Definition rmd_f4 (b c d : N) : N := N.lor (N.land b d) (N.land c (wnot 32 d)).
Definition rmd_f5 (b c d : N) : N := N.lxor b (N.lor c (wnot 32 d)).
(** process_block! :46-135 *)
Definition rmd_comp (st : list N) (block : bytes) : list N :=
  let data := map le_val (chunks_exact 4 block) in
  let go f add rows h := fold_left (rmd_round f add data) rows h in
  let bb := go rmd_f5 0xa953fd4e rmd_round5 (go rmd_f4 0x8f1bbcdc rmd_round4 (go rmd_f3 0x6ed9eba1 rmd_round3
             (go rmd_f2 0x5a827999 rmd_round2 (go rmd_f1 0 rmd_round1 st)))) in
  let bbb := go rmd_f1 0 rmd_par_round5 (go rmd_f2 0x7a6d76e9 rmd_par_round4 (go rmd_f3 0x6d703ef3 rmd_par_round3
              (go rmd_f4 0x5c4dd124 rmd_par_round2 (go rmd_f5 0x50a28be6 rmd_par_round1 st)))) in
  let b3 := wadd 32 (wadd 32 (at_ bbb 3) (at_ st 1)) (at_ bb 2) in
  let bbb := upd 3 b3 bbb in
  let st := upd 1 (wadd 32 (wadd 32 (at_ st 2) (at_ bb 3)) (at_ bbb 4)) st in
  let st := upd 2 (wadd 32 (wadd 32 (at_ st 3) (at_ bb 4)) (at_ bbb 0)) st in
  let st := upd 3 (wadd 32 (wadd 32 (at_ st 4) (at_ bb 0)) (at_ bbb 1)) st in
  let st := upd 4 (wadd 32 (wadd 32 (at_ st 0) (at_ bb 1)) (at_ bbb 2)) st in
  upd 0 (at_ bbb 3) st.
(** ripemd160/mod.rs:65 *)
Definition rmd_iv : list N := [0x67452301; 0xefcdab89; 0x98badcfe; 0x10325476; 0xc3d2e1f0].
Definition rmd_input : engine256 -> bytes -> rust engine256 := input 64 rmd_comp.
(** from_engine ripemd160/mod.rs:24-40, midstate :72-78 *)
Definition rmd_finalize (e : engine256) : rust bytes :=
  rbind (finalize_md 64 rmd_comp 8 (le_bytes 8) e) (fun st => Ret (concat (map (le_bytes 4) st))).
Definition rmd_hash (m : bytes) : rust bytes := rbind (rmd_input (engine_new 64 rmd_iv) m) rmd_finalize.
(** hash160: hash160/mod.rs:21-28 *)
Definition hash160_finalize (e : engine256) : rust bytes := rbind (sha256_finalize e) rmd_hash.

(** * SHA3-256 *)
(** sha3_256/mod.rs:47-72 *)
Definition ROUND_CONSTANTS : list N := [
  0x0000000000000001; 0x0000000000008082; 0x800000000000808A; 0x8000000080008000; 0x000000000000808B; 0x0000000080000001;
  0x8000000080008081; 0x8000000000008009; 0x000000000000008A; 0x0000000000000088; 0x0000000080008009; 0x000000008000000A;
  0x000000008000808B; 0x800000000000008B; 0x8000000000008089; 0x8000000000008003; 0x8000000000008002; 0x8000000000000080;
  0x000000000000800A; 0x800000008000000A; 0x8000000080008081; 0x8000000000008080; 0x0000000080000001; 0x8000000080008008].
(** :74-80 *)
Definition ROTATION_OFFSETS : list (list N) := [[0; 36; 3; 41; 18]; [1; 44; 10; 45; 2]; [62; 6; 43; 15; 61]; [28; 55; 25; 21; 56]; [27; 20; 39; 8; 14]].
(** ind :84, lane :109, column_xor :112-118, chi :124-126 *)
Definition ind (x y : nat) : nat := (x + 5 * y)%nat.
Definition lane (s : list N) (x y : nat) : N := nth (ind x y) s 0.
Definition column_xor (s : list N) (x : nat) : N :=
  N.lxor (N.lxor (N.lxor (N.lxor (lane s x 0) (lane s x 1)) (lane s x 2)) (lane s x 3)) (lane s x 4).
Definition chi (s : list N) (x y : nat) : N :=
  N.lxor (lane s x y) (N.land (wnot 64 (lane s ((x + 1) mod 5) y)) (lane s ((x + 2) mod 5) y)).
(** the two nested loops (0..B).for_each *)
Definition loop2 : list (nat * nat) := list_prod (seq 0 5) (seq 0 5).
(** keccak_round :129-166 *)
Definition keccak_theta (s : list N) : list N :=
  let c := map (column_xor s) (seq 0 5) in
  let d := map (fun x => N.lxor (nth ((x + 5 - 1) mod 5) c 0) (rotl 64 1 (nth ((x + 1) mod 5) c 0))) (seq 0 5) in
  fold_left (fun s '(x, y) => upd (ind x y) (N.lxor (lane s x y) (nth x d 0)) s) loop2 s.
Definition keccak_rho_pi (s : list N) : list N :=
  fold_left (fun b '(x, y) =>
    upd (ind y ((2 * x + 3 * y) mod 5)) (rotl 64 (nth y (nth x ROTATION_OFFSETS []) 0) (lane s x y)) b) loop2 (repeat 0 25).
Definition keccak_chi (b s : list N) : list N :=
  fold_left (fun s '(x, y) => upd (ind x y) (chi b x y) s) loop2 s.
Definition keccak_round (s : list N) (rc : N) : list N :=
  let s := keccak_theta s in
  let b := keccak_rho_pi s in
  let s := keccak_chi b s in
  upd (ind 0 0) (N.lxor (lane s 0 0) rc) s.
(** keccakf1600 :168-172 *)
Definition keccakf1600 (s : list N) : list N := fold_left keccak_round ROUND_CONSTANTS s.
(** absorb :192-201 *)
Definition keccak_absorb (s : list N) (block : bytes) : list N :=
  fold_left (fun s i =>
    let '(x, y) := (i mod 5, i / 5)%nat in
    upd (ind x y) (N.lxor (lane s x y) (le_val (takeN 8 (dropN (8 * N.of_nat i) block)))) s) (seq 0 17) s.
Definition sha3_comp (s : list N) (block : bytes) : list N := keccakf1600 (keccak_absorb s block).
Definition sha3_input : engine256 -> bytes -> rust engine256 := input 136 sha3_comp.
(** finalize :221-234 *)
Definition sha3_finalize (e : engine256) : rust bytes :=
  rbind (finalize_sha3 136 sha3_comp e) (fun s => Ret (concat (map (fun x => le_bytes 8 (lane s x 0)) (seq 0 4)))).
