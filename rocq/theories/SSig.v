(** What signatures with sighash types are, and a queue of bytes taken from both ends.  The data types of MSig.v are used. *)
From Verif Require Import Base MSighash MSig.
Local Open Scope N_scope.

(** What is asked of libsecp256k1: its DER encodings are at most 72 bytes and are read back.  Reading may accept other bytes too. *)
Record ecurve_ok (C : ecurve) : Prop := {
  e_len : forall s, lenN (ec_der C s) <= 72;
  e_bytes : forall s, bytes_ok (ec_der C s);
  e_back : forall s, ec_from_der C (ec_der C s) = Some s }.
(** the bytes of the standard types *)
Definition type_byte (t : ecdsa_type) : N :=
  match t with EAll => 1 | ENone => 2 | ESingle => 3 | EAllAcp => 0x81 | ENoneAcp => 0x82 | ESingleAcp => 0x83 end.
Definition tap_byte (t : tap_type) : list N :=
  match t with TDefault => [] | TAll => [1] | TNone => [2] | TSingle => [3] | TAllAcp => [0x81] | TNoneAcp => [0x82] | TSingleAcp => [0x83] end.
Definition ecdsa_bytes (C : ecurve) (s : esig C) : bytes := ec_der C (es_sig C s) ++ [type_byte (es_type C s)].
Definition tap_bytes (s : tsig) : bytes := ts_sig s ++ tap_byte (ts_type s).

(** ** Both ends of a queue *)
Inductive iter_call := CNext | CNth (n : N) | CBack.
(** what a queue answers and what stays in it *)
Definition queue_step (q : bytes) (c : iter_call) : option N * bytes :=
  match c with
  | CNext => (hd_error q, tl q)
  | CNth n => if lenN q <=? n then (None, []) else (nth_error q (N.to_nat n), skipn (S (N.to_nat n)) q)
  | CBack => (hd_error (rev q), removelast q)
  end.
Fixpoint queue_run (q : bytes) (cs : list iter_call) : list (option N) * bytes :=
  match cs with
  | [] => ([], q)
  | c :: cs => let '(a, q) := queue_step q c in let '(l, q) := queue_run q cs in (a :: l, q)
  end.
Definition iter_step (i : into_iter) (c : iter_call) : rust (option N * into_iter) :=
  match c with CNext => iter_next i | CNth n => iter_nth i n | CBack => iter_next_back i end.
Fixpoint iter_run (i : into_iter) (cs : list iter_call) : rust (list (option N) * into_iter) :=
  match cs with
  | [] => Ret ([], i)
  | c :: cs => rbind (iter_step i c) (fun '(a, i) => rbind (iter_run i cs) (fun '(l, i) => Ret (a :: l, i)))
  end.
