(** What a compact block filter is (BIP 158), independently of the code. *)
From Coq Require Import Permutation Sorting.Sorted.
From Verif Require Import Base MTx SWire SSip.
Local Open Scope N_scope.

(** The low [k] bits of a number, most significant first. *)
Fixpoint bits_of (k : nat) (v : N) : list bool :=
  match k with
  | O => []
  | S k' => N.testbit v (N.of_nat k') :: bits_of k' v
  end.
(** The bits of a string of bytes. *)
Definition bits_of_bytes (l : bytes) : list bool := flat_map (bits_of 8) l.
(** Golomb-Rice code with parameter [p]: the quotient in unary, a zero, the remainder in [p] bits. *)
Definition golomb (p n : N) : list bool := repeat true (N.to_nat (n / 2 ^ p)) ++ false :: bits_of (N.to_nat p) n.
(** Differences of neighbours. *)
Fixpoint gaps (last : N) (vs : list N) : list N :=
  match vs with
  | [] => []
  | v :: vs' => (v - last) :: gaps v vs'
  end.
(** An element's place in the range [0, nm). *)
Definition slot (k0 k1 nm : N) (e : bytes) : N := SipHash 2 4 k0 k1 e * nm / 2 ^ 64.
(** [content] holds the ascending values [vs]; [tail] are unused bits. *)
Definition holds (p : N) (vs : list N) (tail : list bool) (content : bytes) : Prop :=
  StronglySorted N.le vs /\ Forall (fun v => v < 2 ^ 64) vs /\
  exists body, content = wire_compact (lenN vs) ++ body /\ bytes_ok body /\ bits_of_bytes body = flat_map (golomb p) (gaps 0 vs) ++ tail.
(** The filter of the distinct elements [els]: their slots in ascending order, padded with zeros to a whole byte. *)
Definition is_filter (k0 k1 m p : N) (els : list bytes) (content : bytes) : Prop :=
  exists vs pad, Permutation vs (map (slot k0 k1 (lenN els * m)) els) /\ (pad < 8)%nat /\ holds p vs (repeat false pad) content.
(** The elements a sequence of additions leaves: each distinct non-empty one once. *)
Definition set_of (added els : list bytes) : Prop := NoDup els /\ forall e, In e els <-> In e added /\ e <> [].
(** Keys, parameters and elements the code is specified for. *)
Definition element_ok (e : bytes) : Prop := bytes_ok e /\ lenN e < 2 ^ 64.

(** The scripts of a block, in the order of the coins: outputs that do not start with OP_RETURN (0x6a), and spent scripts of all
    transactions but the first. *)
Definition output_script (b : block) (s : bytes) : Prop :=
  exists tx o, In tx (b_txs b) /\ In o (tx_outputs tx) /\ to_script o = s /\ (forall r, s <> 106 :: r).
Definition spent_coins (b : block) : list outpoint := flat_map (fun t => map ti_prevout (tx_inputs t)) (tl (b_txs b)).
Definition spent_script {E} (coin : outpoint -> result bytes E) (b : block) (s : bytes) : Prop :=
  exists o, In o (spent_coins b) /\ coin o = Ok s.
