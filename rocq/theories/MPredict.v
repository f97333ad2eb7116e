(** Ready-made weight predictions: bitcoin/src/blockdata/transaction.rs:751-809 (the constants) and 842-888 (ground signatures).
    The subtraction of usize is checked, as in const contexts and debug builds. *)
From Verif Require Import Base MTxSize.
Local Open Scope N_scope.

(** :762 *)
Definition P2WPKH_MAX : iwp := iwp_from_slice 0 [72; 33].
(** :775 *)
Definition NESTED_P2WPKH_MAX : iwp := iwp_from_slice 23 [72; 33].
(** :788 *)
Definition P2PKH_COMPRESSED_MAX : iwp := iwp_from_slice 107 [].
(** :795 *)
Definition P2PKH_UNCOMPRESSED_MAX : iwp := iwp_from_slice 139 [].
(** :802 *)
Definition P2TR_KEY_DEFAULT_SIGHASH : iwp := iwp_from_slice 0 [64].
(** :809 *)
Definition P2TR_KEY_NON_DEFAULT_SIGHASH : iwp := iwp_from_slice 0 [65].
(** :844, 865, 885 *)
Definition ground_size (bytes_to_grind : N) : rust N := if bytes_to_grind <=? 62 then Ret (10 + (62 - bytes_to_grind)) else Panic.
(** :842-846 *)
Definition ground_p2wpkh (bytes_to_grind : N) : rust iwp :=
  rbind (ground_size bytes_to_grind) (fun der_signature_size => Ret (iwp_from_slice 0 [der_signature_size; 33])).
(** :863-867 *)
Definition ground_nested_p2wpkh (bytes_to_grind : N) : rust iwp :=
  rbind (ground_size bytes_to_grind) (fun der_signature_size => Ret (iwp_from_slice 23 [der_signature_size; 33])).
(** :883-888 *)
Definition ground_p2pkh_compressed (bytes_to_grind : N) : rust iwp :=
  rbind (ground_size bytes_to_grind) (fun der_signature_size => Ret (iwp_from_slice (2 + 33 + der_signature_size) [])).
