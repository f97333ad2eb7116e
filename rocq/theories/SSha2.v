(** The secure hash standard, FIPS 180-4, written from the standard's text: the functions of section 4.1, the
    constants of section 4.2 and the initial values of section 5.3 as fractional parts of roots of primes, the padding of
    section 5.1, and the hash computations of section 6. *)
From Coq Require Import String.
From Verif Require Import Base MDec SHash.
Local Open Scope N_scope.

(** * Primes and roots *)
Definition range (a n : nat) : list N := map N.of_nat (seq a n).
Definition is_prime (p : N) : bool :=
  (2 <=? p) && forallb (fun d => negb (p mod d =? 0)) (range 2 (N.to_nat p - 2)).
(** the first 80 primes: the primes up to 409 *)
Definition primes : list N := filter is_prime (range 0 410).
(** the greatest [r < 2^bits] with [r^3 <= n], bit by bit *)
Fixpoint cbrt (bits : nat) (n r : N) : N :=
  match bits with
  | O => r
  | S b => let r' := r + 2 ^ N.of_nat b in if r' * r' * r' <=? n then cbrt b n r' else cbrt b n r
  end.
(** the first [w] bits of the fractional part of the cube root and of the square root of [p] *)
Definition frac_cbrt (w p : N) : N := cbrt (N.to_nat w + 4) (p * 2 ^ (3 * w)) 0 mod 2 ^ w.
Definition frac_sqrt (w p : N) : N := N.sqrt (p * 2 ^ (2 * w)) mod 2 ^ w.

(** * Words (sections 2.2.2 and 3.2) *)
Definition add_mod (w a b : N) : N := (a + b) mod 2 ^ w.
Definition rotr (w n x : N) : N := x / 2 ^ n + (x mod 2 ^ n) * 2 ^ (w - n).
Definition shr (n x : N) : N := x / 2 ^ n.
(** section 4.1 *)
Definition ch (w x y z : N) : N := N.lxor (N.land x y) (N.land (N.lnot x w) z).
Definition maj (x y z : N) : N := N.lxor (N.lxor (N.land x y) (N.land x z)) (N.land y z).
Definition xor3 (a b c : N) : N := N.lxor (N.lxor a b) c.

(** an instance: word size, the four functions, the constants, the number of rounds is the number of constants *)
Record fips := { fw : N; fS0 : N -> N; fS1 : N -> N; fs0 : N -> N; fs1 : N -> N; fK : list N }.
(** sections 4.1.2 and 4.2.2 *)
Definition sha256_std : fips := {|
  fw := 32;
  fS0 := fun x => xor3 (rotr 32 2 x) (rotr 32 13 x) (rotr 32 22 x);
  fS1 := fun x => xor3 (rotr 32 6 x) (rotr 32 11 x) (rotr 32 25 x);
  fs0 := fun x => xor3 (rotr 32 7 x) (rotr 32 18 x) (shr 3 x);
  fs1 := fun x => xor3 (rotr 32 17 x) (rotr 32 19 x) (shr 10 x);
  fK := map (frac_cbrt 32) (firstn 64 primes) |}.
(** sections 4.1.3 and 4.2.3 *)
Definition sha512_std : fips := {|
  fw := 64;
  fS0 := fun x => xor3 (rotr 64 28 x) (rotr 64 34 x) (rotr 64 39 x);
  fS1 := fun x => xor3 (rotr 64 14 x) (rotr 64 18 x) (rotr 64 41 x);
  fs0 := fun x => xor3 (rotr 64 1 x) (rotr 64 8 x) (shr 7 x);
  fs1 := fun x => xor3 (rotr 64 19 x) (rotr 64 61 x) (shr 6 x);
  fK := map (frac_cbrt 64) (firstn 80 primes) |}.

Section Hash.
  Variable f : fips.
  (** the words of a block, big-endian *)
  Definition words_of (block : bytes) : list N := map be_val (blocks (fw f / 8) block).
  (** the message schedule: the word W_t appended to W_0 .. W_(t-1) (sections 6.2.2 and 6.4.2, step 1) *)
  Definition next_word (W : list N) : N :=
    let t := length W in
    (fs1 f (nth (t - 2) W 0) + nth (t - 7) W 0 + fs0 f (nth (t - 15) W 0) + nth (t - 16) W 0) mod 2 ^ fw f.
  Fixpoint schedule (n : nat) (W : list N) : list N :=
    match n with O => W | S n' => schedule n' (W ++ [next_word W]) end.
  (** step 3: one round with K_t and W_t *)
  Definition step (r : list N) (kw : N * N) : list N :=
    match r with
    | [a; b; c; d; e; x; g; h] =>
        let T1 := (h + fS1 f e + ch (fw f) e x g + fst kw + snd kw) mod 2 ^ fw f in
        let T2 := (fS0 f a + maj a b c) mod 2 ^ fw f in
        [add_mod (fw f) T1 T2; a; b; c; add_mod (fw f) d T1; e; x; g]
    | _ => r
    end.
  (** step 4: the intermediate hash value *)
  Definition add_words (a b : list N) : list N := map (fun p => add_mod (fw f) (fst p) (snd p)) (combine a b).
  Definition compress (H : list N) (block : bytes) : list N :=
    let W := schedule (length (fK f) - 16) (words_of block) in
    add_words (fold_left step (combine (fK f) W) H) H.
  (** the digest: the words of the hash value, big-endian *)
  Definition out (H : list N) : bytes := concat (map (be_bytes (N.to_nat (fw f / 8))) H).
  (** the hash of a message with an initial value (sections 6.2 and 6.4); the block is 16 words, the length takes two *)
  Definition hash_words (iv : list N) (m : bytes) : list N :=
    iterate (2 * fw f) compress iv (md_pad (2 * fw f) (fw f / 4) (be_bytes (N.to_nat (fw f / 4))) m).
  Definition hash_with (iv : list N) (m : bytes) : bytes := out (hash_words iv m).
End Hash.

(** the initial hash values (section 5.3) *)
Definition iv256 : list N := map (frac_sqrt 32) (firstn 8 primes).
Definition iv512 : list N := map (frac_sqrt 64) (firstn 8 primes).
Definition iv384 : list N := map (frac_sqrt 64) (firstn 8 (skipn 8 primes)).
(** section 5.3.6: the SHA-512/t initial value generation function *)
Definition ascii_bytes (s : string) : bytes := map Ascii.N_of_ascii (list_ascii_of_string s).
Definition iv512_256 : list N :=
  hash_words sha512_std (map (fun w => N.lxor w 0xa5a5a5a5a5a5a5a5) iv512) (ascii_bytes "SHA-512/256").

Definition SHA256 (m : bytes) : bytes := hash_with sha256_std iv256 m.
Definition SHA512 (m : bytes) : bytes := hash_with sha512_std iv512 m.
Definition SHA384 (m : bytes) : bytes := takeN 48 (hash_with sha512_std iv384 m).
Definition SHA512_256 (m : bytes) : bytes := takeN 32 (hash_with sha512_std iv512_256 m).
(** Bitcoin's double hash, and the tagged hash of BIP 340 *)
Definition SHA256d (m : bytes) : bytes := SHA256 (SHA256 m).
Definition tagged_hash (tag m : bytes) : bytes := SHA256 (SHA256 tag ++ SHA256 tag ++ m).
