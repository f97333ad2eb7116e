(** SHA-1 (FIPS 180-4 section 6.1), RIPEMD-160 (Dobbertin, Bosselaers, Preneel 1996) and SHA3-256 (FIPS 202), written
    from the standards' text. *)
From Verif Require Import Base MDec SHash SSha2.
Local Open Scope N_scope.

(** rotation to the left *)
Definition rol (w n x : N) : N := (x * 2 ^ n) mod 2 ^ w + x / 2 ^ (w - n).
Definition parity (x y z : N) : N := xor3 x y z.

(** * SHA-1 *)
(** the constants: 2^30 times the square roots of 2, 3, 5 and 10 *)
Definition sqrt30 (n : N) : N := N.sqrt (n * 2 ^ 60).
Definition sha1_f (t : nat) (x y z : N) : N :=
  match (t / 20)%nat with O => ch 32 x y z | 1%nat => parity x y z | 2%nat => maj x y z | _ => parity x y z end.
Definition sha1_K (t : nat) : N := sqrt30 (nth (t / 20) [2; 3; 5; 10] 0).
Fixpoint sha1_schedule (n : nat) (W : list N) : list N :=
  match n with
  | O => W
  | S n' =>
      let t := length W in
      sha1_schedule n' (W ++ [rol 32 1 (N.lxor (N.lxor (N.lxor (nth (t - 3) W 0) (nth (t - 8) W 0)) (nth (t - 14) W 0)) (nth (t - 16) W 0))])
  end.
Definition sha1_step (r : list N) (tw : nat * N) : list N :=
  match r with
  | [a; b; c; d; e] => [(rol 32 5 a + sha1_f (fst tw) b c d + e + sha1_K (fst tw) + snd tw) mod 2 ^ 32; a; rol 32 30 b; c; d]
  | _ => r
  end.
Definition add32 (a b : list N) : list N := map (fun p => (fst p + snd p) mod 2 ^ 32) (combine a b).
Definition sha1_compress (H : list N) (block : bytes) : list N :=
  let W := sha1_schedule 64 (map be_val (blocks 4 block)) in
  add32 (fold_left sha1_step (combine (seq 0 80) W) H) H.
(** the initial value of section 5.3.1 (that of MD4 with one more word) *)
Definition md4_iv : list N := map le_val [[1; 35; 69; 103]; [137; 171; 205; 239]; [254; 220; 186; 152]; [118; 84; 50; 16]] ++ [0xc3d2e1f0].
Definition SHA1 (m : bytes) : bytes :=
  concat (map (be_bytes 4) (iterate 64 sha1_compress md4_iv (md_pad 64 8 (be_bytes 8) m))).

(** * RIPEMD-160 *)
Definition rmd_f (j : nat) (x y z : N) : N :=
  match j with
  | O => xor3 x y z
  | 1%nat => N.lor (N.land x y) (N.land (N.lnot x 32) z)
  | 2%nat => N.lxor (N.lor x (N.lnot y 32)) z
  | 3%nat => N.lor (N.land x z) (N.land y (N.lnot z 32))
  | _ => N.lxor x (N.lor y (N.lnot z 32))
  end.
(** the constants: 2^30 times the square roots (left) and cube roots (right) of the primes *)
Definition rmd_K (round : nat) : N := nth round [0; sqrt30 2; sqrt30 3; sqrt30 5; sqrt30 7] 0.
Definition cbrt30 (n : N) : N := cbrt 33 (n * 2 ^ 90) 0.
Definition rmd_K' (round : nat) : N := nth round [cbrt30 2; cbrt30 3; cbrt30 5; cbrt30 7; 0] 0.
(** the permutations of the message words *)
Definition rho (i : nat) : nat := nth i [7; 4; 13; 1; 10; 6; 15; 3; 12; 0; 9; 5; 2; 14; 11; 8]%nat 0%nat.
Definition pi_ (i : nat) : nat := ((9 * i + 5) mod 16)%nat.
(** the message word used in step [i] of [round]: rho^round, and rho^round o pi in the parallel line; the
    permutations of the paper act on positions: r(i) = rho(rho(...(i))) *)
Fixpoint iter_rho (n : nat) (i : nat) : nat := match n with O => i | S n' => rho (iter_rho n' i) end.
Definition rmd_r (round i : nat) : nat := iter_rho round i.
Definition rmd_r' (round i : nat) : nat := iter_rho round (pi_ i).
(** the shifts, by round and message word *)
Definition rmd_shifts : list (list N) := [
  [11; 14; 15; 12; 5; 8; 7; 9; 11; 13; 14; 15; 6; 7; 9; 8];
  [12; 13; 11; 15; 6; 9; 9; 7; 12; 15; 11; 13; 7; 8; 7; 7];
  [13; 15; 14; 11; 7; 7; 6; 8; 13; 14; 13; 12; 5; 5; 6; 9];
  [14; 11; 12; 14; 8; 6; 5; 5; 15; 12; 15; 14; 9; 9; 8; 6];
  [15; 12; 13; 13; 9; 5; 8; 6; 14; 11; 12; 11; 8; 6; 5; 5]].
Definition rmd_s (round word : nat) : N := nth word (nth round rmd_shifts []) 0.
Definition rmd_step (f : N -> N -> N -> N) (K x s : N) (r : list N) : list N :=
  match r with
  | [A; B; C; D; E] => [E; (rol 32 s ((A + f B C D + x + K) mod 2 ^ 32) + E) mod 2 ^ 32; B; rol 32 10 C; D]
  | _ => r
  end.
(** the 80 steps of a line; [ji] runs over (round, step in the round) *)
Definition rmd_steps : list (nat * nat) := list_prod (seq 0 5) (seq 0 16).
Definition rmd_left (X h : list N) : list N :=
  fold_left (fun r '(j, i) => let w := rmd_r j i in rmd_step (rmd_f j) (rmd_K j) (nth w X 0) (rmd_s j w) r) rmd_steps h.
Definition rmd_right (X h : list N) : list N :=
  fold_left (fun r '(j, i) => let w := rmd_r' j i in rmd_step (rmd_f (4 - j)) (rmd_K' j) (nth w X 0) (rmd_s j w) r) rmd_steps h.
Definition add3 (a b c : N) : N := (a + b + c) mod 2 ^ 32.
Definition rmd_compress (h : list N) (block : bytes) : list N :=
  let X := map le_val (blocks 4 block) in
  match h, rmd_left X h, rmd_right X h with
  | [h0; h1; h2; h3; h4], [A; B; C; D; E], [A'; B'; C'; D'; E'] => [add3 h1 C D'; add3 h2 D E'; add3 h3 E A'; add3 h4 A B'; add3 h0 B C']
  | _, _, _ => h
  end.
Definition RIPEMD160 (m : bytes) : bytes :=
  concat (map (le_bytes 4) (iterate 64 rmd_compress md4_iv (md_pad 64 8 (le_bytes 8) m))).
(** Bitcoin's HASH160 *)
Definition HASH160 (m : bytes) : bytes := RIPEMD160 (SHA256 m).

(** * SHA3-256 *)
(** the state is a function of the lane coordinates, tabulated as a list of 25 words *)
Definition lane_of (A : list N) (x y : nat) : N := nth (x mod 5 + 5 * (y mod 5)) A 0.
Definition tabulate (f : nat -> nat -> N) : list N := map (fun i => f (i mod 5)%nat (i / 5)%nat) (seq 0 25).
(** section 3.2.1 *)
Definition theta (A : list N) : list N :=
  let C x := N.lxor (N.lxor (N.lxor (N.lxor (lane_of A x 0) (lane_of A x 1)) (lane_of A x 2)) (lane_of A x 3)) (lane_of A x 4) in
  tabulate (fun x y => N.lxor (lane_of A x y) (N.lxor (C (x + 4)%nat) (rol 64 1 (C (x + 1)%nat)))).
(** section 3.2.2: the offset of the lane reached after [t] steps of the walk from (1, 0) *)
Fixpoint walk (t : nat) (xy : nat * nat) : list (nat * nat) :=
  match t with O => [] | S t' => xy :: walk t' (snd xy, (2 * fst xy + 3 * snd xy) mod 5)%nat end.
Definition offset (x y : nat) : N :=
  fold_left (fun acc '(t, (x', y')) => if Nat.eqb x x' && Nat.eqb y y' then ((N.of_nat t + 1) * (N.of_nat t + 2) / 2) mod 64 else acc)
    (combine (seq 0 24) (walk 24 (1, 0)%nat)) 0.
Definition rho3 (A : list N) : list N := tabulate (fun x y => rol 64 (offset x y) (lane_of A x y)).
(** section 3.2.3 *)
Definition pi3 (A : list N) : list N := tabulate (fun x y => lane_of A (x + 3 * y) x).
(** section 3.2.4 *)
Definition chi3 (A : list N) : list N :=
  tabulate (fun x y => N.lxor (lane_of A x y) (N.land (N.lnot (lane_of A (x + 1) y) 64) (lane_of A (x + 2) y))).
(** section 3.2.5: the bit rc(t) is produced by a linear feedback shift register *)
Fixpoint lfsr (t : nat) (R : N) : N :=
  match t with
  | O => R
  | S t' => let R := N.shiftl R 1 in lfsr t' (if N.testbit R 8 then N.lxor R 0x171 else R)
  end.
Definition rc (t : nat) : bool := N.testbit (lfsr (t mod 255) 1) 0.
Definition RC (ir : nat) : N :=
  fold_left (fun acc j => if rc (j + 7 * ir) then acc + 2 ^ (2 ^ N.of_nat j - 1) else acc) (seq 0 7) 0.
Definition iota3 (ir : nat) (A : list N) : list N :=
  tabulate (fun x y => if Nat.eqb x 0 && Nat.eqb y 0 then N.lxor (lane_of A x y) (RC ir) else lane_of A x y).
(** section 3.3 *)
Definition keccak_f (A : list N) : list N := fold_left (fun A ir => iota3 ir (chi3 (pi3 (rho3 (theta A))))) (seq 0 24) A.
(** section 4: the block is xored into the first lanes of the state *)
Definition sha3_compress (A : list N) (block : bytes) : list N :=
  let P := map le_val (blocks 8 block) in
  keccak_f (tabulate (fun x y => N.lxor (lane_of A x y) (nth (x + 5 * y) P 0))).
Definition SHA3_256 (m : bytes) : bytes :=
  takeN 32 (concat (map (le_bytes 8) (iterate 136 sha3_compress (repeat 0 25) (sha3_pad 136 m)))).
