(** The decoders a user of the library can get: the primitives, closed under the combinators.
    The index is [true] for decoders that cannot complete without reading a byte; vectors need
    such items (a vector of empty items is outside the library's use). *)
From Verif Require Import Base MDec MWitness MTx.
Local Open Scope N_scope.

Inductive built : forall A E : Type, bool -> decoder A E -> Prop :=
| B_array0 : built _ _ false (array_dec 0)
| B_array n : 0 < n -> built _ _ true (array_dec n)
| B_compact limit : built _ _ true (cs_dec limit)
| B_compact_u64 : built _ _ true cs_u64_dec
| B_bytevec limit : built _ _ true (bytevec_dec limit)
| B_pair A EA B EB b c (DA : decoder A EA) (DB : decoder B EB) :
    built _ _ b DA -> built _ _ c DB -> built _ _ (b && c) (dec2 DA DB)
| B_newtype A E B F b (D : decoder A E) (me : E -> F) (f : A -> result B F) :
    built _ _ b D -> built _ _ b (newtype_dec D me f)
| B_exact A E (D : decoder A E) n : built _ _ true D -> built _ _ false (exactvec_dec D n)
| B_vec A E (D : decoder A E) limit : built _ _ true D -> built _ _ true (vec_dec D limit)
| B_witness : built _ _ true witness_dec
| B_tx : built _ _ true tx_dec.
Arguments built {A E} _ _.

(** [D] decodes exactly the encodings by [enc] of the values satisfying [ok]. *)
Record decodes {A E} (D : decoder A E) (enc : A -> bytes) (ok : A -> Prop) : Prop := {
  decodes_bytes : forall v, ok v -> bytes_ok (enc v);
  decodes_iff : forall l v r, bytes_ok l ->
    (decode_from_slice_unbounded D l = Ret (Ok v, r) <-> l = enc v ++ r /\ ok v);
  decodes_total : forall l, bytes_ok l -> lenN l < 2 ^ 32 -> decode_from_slice_unbounded D l <> Panic }.
