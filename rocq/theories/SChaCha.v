(** RFC 8439: ChaCha20, Poly1305 and the AEAD construction. *)
From Verif Require Import Base MDec SHash SHash2.
Local Open Scope N_scope.

(** 2.1: the quarter round on four numbers *)
Definition plus32 (a b : N) : N := (a + b) mod 2 ^ 32.
Definition quarter_round (v : N * N * N * N) : N * N * N * N :=
  let '(a, b, c, d) := v in
  let a := plus32 a b in let d := rol 32 16 (N.lxor d a) in
  let c := plus32 c d in let b := rol 32 12 (N.lxor b c) in
  let a := plus32 a b in let d := rol 32 8 (N.lxor d a) in
  let c := plus32 c d in let b := rol 32 7 (N.lxor b c) in
  (a, b, c, d).
(** 2.2: QUARTERROUND(x, y, z, w) on a state of sixteen words *)
Definition get (s : list N) (i : nat) : N := nth i s 0.
Fixpoint set (s : list N) (i : nat) (v : N) : list N :=
  match s, i with [], _ => [] | _ :: s', O => v :: s' | h :: s', S i' => h :: set s' i' v end.
Definition QUARTERROUND (s : list N) (q : nat * nat * nat * nat) : list N :=
  let '(x, y, z, w) := q in
  let '(a, b, c, d) := quarter_round (get s x, get s y, get s z, get s w) in
  set (set (set (set s x a) y b) z c) w d.
(** 2.3: columns then diagonals, ten times; then the original state is added *)
Definition inner_block (s : list N) : list N :=
  fold_left QUARTERROUND [(0, 4, 8, 12); (1, 5, 9, 13); (2, 6, 10, 14); (3, 7, 11, 15); (0, 5, 10, 15); (1, 6, 11, 12); (2, 7, 8, 13); (3, 4, 9, 14)]%nat s.
Definition words_of (l : bytes) : list N := map le_val (blocks 4 l).
Definition chacha20_block (key nonce : bytes) (counter : N) : bytes :=
  let state := [0x61707865; 0x3320646e; 0x79622d32; 0x6b206574] ++ words_of key ++ [counter] ++ words_of nonce in
  let working := Nat.iter 10 inner_block state in
  concat (map (fun p => le_bytes 4 (plus32 (fst p) (snd p))) (combine state working)).
(** 2.4: the key stream byte at a position, counting from block 0; encryption from a position *)
Definition key_byte (key nonce : bytes) (pos : N) : N := nth (N.to_nat (pos mod 64)) (chacha20_block key nonce (pos / 64)) 0.
Fixpoint xor_from (key nonce : bytes) (pos : N) (m : bytes) : bytes :=
  match m with [] => [] | b :: m' => N.lxor b (key_byte key nonce pos) :: xor_from key nonce (pos + 1) m' end.
Definition chacha20_encrypt (key nonce : bytes) (counter : N) (m : bytes) : bytes := xor_from key nonce (64 * counter) m.

(** 2.5: Poly1305 *)
Definition P1305 : N := 2 ^ 130 - 5.
Definition clamp (r : N) : N := N.land r 0x0ffffffc0ffffffc0ffffffc0fffffff.
Definition Poly1305 (key msg : bytes) : bytes :=
  let r := clamp (le_val (takeN 16 key)) in
  let s := le_val (dropN 16 key) in
  let a := fold_left (fun a block => (a + le_val (block ++ [1])) * r mod P1305) (blocks 16 msg) 0 in
  le_bytes 16 ((a + s) mod 2 ^ 128).

(** 2.6, 2.8: the one-time key and the AEAD *)
Definition pad16 (x : bytes) : bytes := repeat 0 (N.to_nat ((16 - lenN x mod 16) mod 16)).
Definition otk (key nonce : bytes) : bytes := takeN 32 (chacha20_block key nonce 0).
Definition mac_data (aad ciphertext : bytes) : bytes :=
  aad ++ pad16 aad ++ ciphertext ++ pad16 ciphertext ++ le_bytes 8 (lenN aad) ++ le_bytes 8 (lenN ciphertext).
Definition aead_mac (key nonce aad ciphertext : bytes) : bytes := Poly1305 (otk key nonce) (mac_data aad ciphertext).
(** a key of 32 bytes and a nonce of 12 *)
Definition key_nonce (key nonce : bytes) : Prop := bytes_ok key /\ bytes_ok nonce /\ lenN key = 32 /\ lenN nonce = 12.
(** absent associated data counts as empty *)
Definition aad_bytes (aad : option bytes) : bytes := match aad with Some a => a | None => [] end.
