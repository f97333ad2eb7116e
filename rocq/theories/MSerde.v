(** The serde implementations: what each type hands to a format and what it asks a format for.  A serializer receives a value
    of serde's data model ([sval]).  A Deserialize implementation is the call it makes on the deserializer together with its
    visitor ([req]).  The two kinds of format the crates of /repo are tested with (serde_json / serde_test and bincode 1 with
    fixed-width integers) are external; their reading is modelled by [self] and [compact], their writing by the data model
    itself and by [flat].  Errors of formats are one value ([None]); size hints have no effect on results. *)
From Verif Require Import Base MDec MText MWitness MTx MKey MTaproot MHex.
From Coq Require Import String.
From Verif Require MP2p.
Local Open Scope N_scope.

(** ** serde's data model (external): serialize_u8 .. u64, serialize_i32 / i64, serialize_str, serialize_bytes,
    serialize_none / some, serialize_seq, serialize_tuple (arrays), serialize_struct, tuple and newtype variants *)
Inductive sval :=
| SvU (bits n : N) | SvI (bits : N) (z : Z) | SvStr (s : str) | SvBytes (b : bytes)
| SvNone | SvSome (v : sval) | SvSeq (l : list sval) | SvTuple (l : list sval)
| SvStruct (fields : list (str * sval)) | SvVariant (index : N) (name : str) (fields : list sval).

(** What bincode 1 (external) writes: little-endian integers of fixed width, 64-bit lengths, a 32-bit variant index, nothing
    for the names and the end of sequences *)
Definition flat_len (n : N) : bytes := le_bytes 8 n.
Definition uint_bytes (bits n : N) : bytes := le_bytes (N.to_nat (bits / 8)) n.
Definition int_bytes (bits : N) (z : Z) : bytes := MP2p.i_to_le (N.to_nat (bits / 8)) z.
Fixpoint flat (v : sval) : bytes :=
  match v with
  | SvU bits n => uint_bytes bits n
  | SvI bits z => int_bytes bits z
  | SvStr s => flat_len (lenN (MP2p.as_bytes s)) ++ MP2p.as_bytes s
  | SvBytes b => flat_len (lenN b) ++ b
  | SvNone => [0]
  | SvSome v => 1 :: flat v
  | SvSeq l => flat_len (lenN l) ++ flat_map flat l
  | SvTuple l => flat_map flat l
  | SvStruct f => flat_map (fun p => flat (snd p)) f
  | SvVariant i _ l => le_bytes 4 i ++ flat_map flat l
  end.

(** ** Requests: deserialize_u8 .. u64 and i64 with a visitor for the number; deserialize_str (visitors that also take bytes
    read them as UTF-8); deserialize_bytes / byte_buf; deserialize_option; deserialize_seq of equal elements, and of pairs of
    successive elements; deserialize_tuple of bytes; deserialize_struct with two fields (a visitor for sequences and one for
    maps); deserialize_enum with a tuple variant of two fields and a newtype variant *)
Definition outcome (A : Type) := rust (option A).
Inductive req : Type -> Type :=
| RUint {A} (bits : N) (k : N -> outcome A) : req A
| RInt {A} (bits : N) (k : Z -> outcome A) : req A
| RStr {A} (bytes_too : bool) (k : str -> outcome A) : req A
| RBytes {A} (k : bytes -> outcome A) : req A
| ROpt {X} (r : req X) : req (option X)
| RSeq {X A} (r : req X) (k : list X -> outcome A) : req A
| RPairs {X Y A} (r1 : req X) (r2 : req Y) (k : list (X * Y) -> outcome A) : req A
| RArr {A} (n : N) (k : bytes -> outcome A) : req A
| RStruct2 {X Y A} (n1 n2 : str) (s1 : req X) (s2 : req Y) (m1 : req X) (m2 : req Y) (k : X -> Y -> A) : req A
| REnum2 {X Y Z A} (n1 : str) (r1 : req X) (r2 : req Y) (n2 : str) (r3 : req Z) (k1 : X -> Y -> A) (k2 : Z -> A) : req A.

Definition obind {A B} (m : outcome A) (f : A -> outcome B) : outcome B :=
  match m with Panic => Panic | Ret None => Ret None | Ret (Some a) => f a end.
Definition none {A} : outcome A := Ret None.
Definition some {A} (a : A) : outcome A := Ret (Some a).

(** *** Formats that keep the kind of each value (external; JSON, CBOR, serde_test) *)
Fixpoint read_all {X} (f : sval -> outcome X) (l : list sval) : outcome (list X) :=
  match l with [] => some [] | v :: l' => obind (f v) (fun x => obind (read_all f l') (fun r => some (x :: r))) end.
(** a missing second element is the visitor's own error *)
Fixpoint read_pairs {X Y} (f : sval -> outcome X) (g : sval -> outcome Y) (l : list sval) : outcome (list (X * Y)) :=
  match l with
  | [] => some []
  | [v] => obind (f v) (fun _ => none)
  | v :: w :: l' => obind (f v) (fun x => obind (g w) (fun y => obind (read_pairs f g l') (fun r => some ((x, y) :: r))))
  end.
Definition as_u8 (v : sval) : outcome N := match v with SvU _ n => if n <? 256 then some n else none | _ => none end.
(** the loop of visit_map, primitives/src/transaction.rs:1118-1143; keys are read as field identifiers, unknown ones are errors *)
Fixpoint read_fields {X Y} (n1 n2 : str) (f : sval -> outcome X) (g : sval -> outcome Y) (fields : list (str * sval)) (a : option X) (b : option Y) : outcome (X * Y) :=
  match fields with
  | [] => match a, b with Some x, Some y => some (x, y) | _, _ => none end
  | (name, v) :: fields' =>
      if str_eqb name n1 then match a with Some _ => none | None => obind (f v) (fun x => read_fields n1 n2 f g fields' (Some x) b) end
      else if str_eqb name n2 then match b with Some _ => none | None => obind (g v) (fun y => read_fields n1 n2 f g fields' a (Some y)) end
      else none
  end.
(** [tagged]: whether the format marks the presence of an optional value (serde_test) or writes it as it is (JSON).
    Integers are accepted in any width if the value fits. *)
Fixpoint self {A} (tagged : bool) (r : req A) : sval -> outcome A :=
  match r in req A return sval -> outcome A with
  | RUint bits k => fun v => match v with SvU _ n => if n <? 2 ^ bits then k n else none | _ => none end
  | RInt bits k => fun v =>
      match v with
      | SvU _ n => if n <? 2 ^ (bits - 1) then k (Z.of_N n) else none
      | SvI _ z => if ((- 2 ^ (Z.of_N bits - 1) <=? z) && (z <? 2 ^ (Z.of_N bits - 1)))%Z then k z else none
      | _ => none
      end
  | RStr bytes_too k => fun v =>
      match v with
      | SvStr s => k s
      | SvBytes b => if bytes_too then match MP2p.from_utf8 b with Some s => k s | None => none end else none
      | _ => none
      end
  | RBytes k => fun v => match v with SvBytes b => k b | _ => none end
  | ROpt r => fun v =>
      match v with
      | SvNone => some None
      | SvSome w => obind (self tagged r w) (fun x => some (Some x))
      | w => if tagged then none else obind (self tagged r w) (fun x => some (Some x))
      end
  | RSeq r k => fun v => match v with SvSeq l => obind (read_all (self tagged r) l) k | _ => none end
  | RPairs r1 r2 k => fun v => match v with SvSeq l => obind (read_pairs (self tagged r1) (self tagged r2) l) k | _ => none end
  | RArr n k => fun v =>
      match v with
      | SvSeq l | SvTuple l => obind (read_all as_u8 l) (fun b => if lenN b =? n then k b else none)
      | _ => none
      end
  | RStruct2 n1 n2 s1 s2 m1 m2 k => fun v =>
      match v with
      | SvSeq [a; b] => obind (self tagged s1 a) (fun x => obind (self tagged s2 b) (fun y => some (k x y)))
      | SvStruct f => obind (read_fields n1 n2 (self tagged m1) (self tagged m2) f None None) (fun '(x, y) => some (k x y))
      | _ => none
      end
  | REnum2 n1 r1 r2 n2 r3 k1 k2 => fun v =>
      match v with
      | SvVariant _ name l =>
          if str_eqb name n1 then match l with [a; b] => obind (self tagged r1 a) (fun x => obind (self tagged r2 b) (fun y => some (k1 x y))) | _ => none end
          else if str_eqb name n2 then match l with [a] => obind (self tagged r3 a) (fun x => some (k2 x)) | _ => none end
          else none
      | _ => none
      end
  end.

(** *** The compact format (bincode 1, external): the request alone decides what is read *)
Definition take (n : N) (b : bytes) : outcome (bytes * bytes) := if lenN b <? n then none else some (takeN n b, dropN n b).
Definition rd_uint (bits : N) (b : bytes) : outcome (N * bytes) := obind (take (bits / 8) b) (fun '(x, r) => some (le_val x, r)).
Definition rd_block (b : bytes) : outcome (bytes * bytes) := obind (rd_uint 64 b) (fun '(n, r) => take n r).
Fixpoint rd_many {X} (f : bytes -> outcome (X * bytes)) (n : nat) (b : bytes) : outcome (list X * bytes) :=
  match n with
  | O => some ([], b)
  | S n' => obind (f b) (fun '(x, b) => obind (rd_many f n' b) (fun '(l, b) => some (x :: l, b)))
  end.
(** the number of elements counts both of a pair; the last of an odd number finds nothing *)
Fixpoint rd_pairs {X Y} (f : bytes -> outcome (X * bytes)) (g : bytes -> outcome (Y * bytes)) (n : nat) (b : bytes) : outcome (list (X * Y) * bytes) :=
  match n with
  | O => some ([], b)
  | S O => obind (f b) (fun _ => none)
  | S (S n') => obind (f b) (fun '(x, b) => obind (g b) (fun '(y, b) => obind (rd_pairs f g n' b) (fun '(l, b) => some ((x, y) :: l, b))))
  end.
Definition keep {A} (r : bytes) (m : outcome A) : outcome (A * bytes) := obind m (fun a => some (a, r)).
Fixpoint compact {A} (r : req A) : bytes -> outcome (A * bytes) :=
  match r in req A return bytes -> outcome (A * bytes) with
  | RUint bits k => fun b => obind (rd_uint bits b) (fun '(n, r) => keep r (k n))
  | RInt bits k => fun b => obind (take (bits / 8) b) (fun '(x, r) => keep r (k (MP2p.i_from_le x)))
  | RStr _ k => fun b => obind (rd_block b) (fun '(x, r) => match MP2p.from_utf8 x with Some s => keep r (k s) | None => none end)
  | RBytes k => fun b => obind (rd_block b) (fun '(x, r) => keep r (k x))
  | ROpt r => fun b => obind (rd_uint 8 b) (fun '(t, b) =>
      if t =? 0 then some (None, b) else if t =? 1 then obind (compact r b) (fun '(x, b) => some (Some x, b)) else none)
  | RSeq r k => fun b => obind (rd_uint 64 b) (fun '(n, b) => obind (rd_many (compact r) (N.to_nat n) b) (fun '(l, b) => keep b (k l)))
  | RPairs r1 r2 k => fun b => obind (rd_uint 64 b) (fun '(n, b) => obind (rd_pairs (compact r1) (compact r2) (N.to_nat n) b) (fun '(l, b) => keep b (k l)))
  | RArr n k => fun b => obind (take n b) (fun '(x, r) => keep r (k x))
  | RStruct2 _ _ s1 s2 _ _ k => fun b => obind (compact s1 b) (fun '(x, b) => obind (compact s2 b) (fun '(y, b) => some (k x y, b)))
  | REnum2 _ r1 r2 _ r3 k1 k2 => fun b => obind (rd_uint 32 b) (fun '(i, b) =>
      if i =? 0 then obind (compact r1 b) (fun '(x, b) => obind (compact r2 b) (fun '(y, b) => some (k1 x y, b)))
      else if i =? 1 then obind (compact r3 b) (fun '(x, b) => some (k2 x, b)) else none)
  end.

(** .map_err(E::custom) *)
Definition ok_only {A E} (r : result A E) : option A := match r with Ok a => Some a | Err _ => None end.
Definition r_ok {A E} (r : rust (result A E)) : outcome A := rbind r (fun x => Ret (ok_only x)).
(** Serialize and Deserialize of u8 slices and of Vec<u8> (serde, external): sequences of numbers *)
Definition ser_slice (b : bytes) : sval := SvSeq (map (SvU 8) b).
Definition ser_array (b : bytes) : sval := SvTuple (map (SvU 8) b).
Definition de_u8 : req N := RUint 8 some.

(** ** hashes/src/macros.rs:460-567, primitives/src/hash_types/mod.rs:84-193 *)
Definition ser_hash (backward human : bool) (h : bytes) : sval := if human then SvStr (hash_display backward false h) else SvBytes h.
Definition de_hash (len : N) (backward human : bool) : req bytes :=
  if human then RStr true (fun s => Ret (ok_only (hash_from_str len backward s)))
  else RBytes (fun b => if lenN b =? len then some b else none).

(** ** consensus_encoding/src/serde_as_consensus.rs:29-109, opt :162-213, vec :267-324; the hexadecimal is written chunk by chunk *)
Definition ser_consensus {A} (enc : A -> bytes) (human : bool) (a : A) : sval := if human then SvStr (hex_bytes false (enc a)) else SvBytes (enc a).
Definition de_consensus {A E} (D : decoder A E) (human : bool) : req A :=
  if human then RStr true (fun s => r_ok (decode_from_hex_str D s)) else RBytes (fun b => r_ok (decode_from_slice D b)).
Definition ser_consensus_opt {A} (enc : A -> bytes) (human : bool) (o : option A) : sval := match o with Some a => SvSome (ser_consensus enc human a) | None => SvNone end.
Definition de_consensus_opt {A E} (D : decoder A E) (human : bool) : req (option A) := ROpt (de_consensus D human).
Definition ser_consensus_vec {A} (enc : A -> bytes) (human : bool) (l : list A) : sval := SvSeq (map (ser_consensus enc human) l).
Definition de_consensus_vec {A E} (D : decoder A E) (human : bool) : req (list A) := RSeq (de_consensus D human) some.

(** ** Script and ScriptBuf: primitives/src/script/mod.rs:450-563; a borrowed script is read from bytes only (:466-497) *)
Definition ser_script (human : bool) (s : bytes) : sval := if human then SvStr (hex_bytes false s) else SvBytes s.
Definition de_script (human : bool) : req bytes := if human then RStr false (fun s => Ret (ok_only (decode_to_vec s))) else RBytes some.
Definition de_script_ref (human : bool) : req bytes := if human then RStr false (fun _ => none) else RBytes some.

(** ** Witness: primitives/src/witness.rs:677-739, 905-914; String::deserialize also takes bytes *)
Definition ser_witness (human : bool) (w : witness) : rust sval :=
  rbind (wit_to_vec w) (fun l => Ret (SvSeq (map (fun e => if human then SvStr (hex_bytes false e) else ser_slice e) l))).
Definition de_witness (human : bool) : req witness :=
  RSeq (if human then RStr true (fun s => Ret (ok_only (decode_to_vec s))) else RSeq de_u8 some)
    (fun l => rbind (from_slice l) (fun w => some w)).

(** ** OutPoint: primitives/src/transaction.rs:1040-1151 *)
Definition f_txid : str := lit "txid"%string.
Definition f_vout : str := lit "vout"%string.
Definition ser_outpoint (human : bool) (o : outpoint) : sval :=
  if human then SvStr (outpoint_display o)
  else SvStruct [(f_txid, ser_slice (op_txid o)); (f_vout, ser_array (le_bytes 4 (op_vout o)))].
Definition de_outpoint (human : bool) : req outpoint :=
  if human then RStr false (fun s => Ret (ok_only (outpoint_from_str s)))
  else RStruct2 f_txid f_vout (de_hash 32 true false) (RUint 32 some) (RArr 32 some) (RArr 4 (fun b => some (le_val b)))
         (fun t v => {| op_txid := t; op_vout := v |}).

(** ** LeafVersion: taproot_primitives/src/lib.rs:263-308 *)
Definition ser_leaf_version (v : leaf_version) : sval := SvU 8 (lv_to_consensus v).
Definition de_leaf_version : req leaf_version := RUint 8 (fun n => r_ok (lv_from_consensus n)).
(** ** TapLeaf (derived), NodeInfo, TapTree: bitcoin/src/taproot/mod.rs:859-866, 787-856, 578-582.  A length is a usize, which is
    written as a u64; the depth asked for is the u8 of add_leaf_with_ver *)
Definition ser_tap_leaf (human : bool) (l : tap_leaf) : sval :=
  match l with
  | LScript s v => SvVariant 0 (lit "Script"%string) [ser_script human s; ser_leaf_version v]
  | LHidden h => SvVariant 1 (lit "Hidden"%string) [ser_hash false human h]
  end.
Definition de_tap_leaf (human : bool) : req tap_leaf :=
  REnum2 (lit "Script"%string) (de_script human) de_leaf_version (lit "Hidden"%string) (de_hash 32 false human) LScript LHidden.
Definition ser_node (human : bool) (n : node_info) : sval :=
  SvSeq (flat_map (fun '(d, l) => [SvU 64 d; ser_tap_leaf human l]) (node_serialize n)).
Section Node.
  Variable H : bytes -> bytes.
  Definition de_node (human : bool) : req node_info := RPairs de_u8 (de_tap_leaf human) (fun l => r_ok (node_deserialize H l)).
  Definition de_tap_tree (human : bool) : req node_info :=
    RPairs de_u8 (de_tap_leaf human) (fun l => obind (r_ok (node_deserialize H l)) (fun n => Ret (ok_only (tap_tree_of n)))).
End Node.
(** ** TaprootMerkleBranchBuf (into / try_from Vec<TapNodeHash>): bitcoin/src/taproot/merkle_branch/buf.rs:17-20 *)
Definition ser_branch (human : bool) (b : list bytes) : sval := SvSeq (map (ser_hash false human) b).
Definition de_branch (human : bool) : req (list bytes) := RSeq (de_hash 32 false human) (fun l => Ret (ok_only (branch_from_collection l))).
(** ** ArrayVec: internals/src/array_vec.rs:250-307; the elements it holds *)
Definition ser_array_vec {T} (ser : T -> sval) (l : list T) : sval := SvSeq (map ser l).
Definition de_array_vec {T} (cap : N) (de : req T) : req (list T) := RSeq de (fun l => if cap <? lenN l then none else some l).
