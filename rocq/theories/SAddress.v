(** What an address is, from the Bitcoin wiki (version bytes), BIP173/BIP350 (SBech32.v) and BIP141: what it pays to and how it is
    written.  The data types of the model are used; none of its functions. *)
From Coq Require Import String.
From Verif Require Import Base MText MScript SScript MBip32 SBase58 SBech32 MPow MAddress.
Local Open Scope N_scope.

(** the values of type Address: hashes have twenty bytes and the witness program is one BIP141 allows *)
Definition address_ok (a : address) : Prop :=
  match a with
  | AP2pkh h _ => bytes_ok h /\ lenN h = 20
  | AP2sh h _ => bytes_ok h /\ lenN h = 20
  | ASegwit p _ => bytes_ok (wp_program p) /\ program_valid (wp_version p) (wp_program p)
  end.
(** the output script it stands for *)
Definition pays_to (a : address) : bytes :=
  match a with
  | AP2pkh h _ => t_p2pkh h
  | AP2sh h _ => t_p2sh h
  | ASegwit p _ => t_witness (wp_version p) (wp_program p)
  end.
Definition prefix_text (h : known_hrp) : str := match h with HMainnet => lit "bc" | HTestnets => lit "tb" | HRegtest => lit "bcrt" end.
(** Base58Check text of a version byte and a hash *)
Definition check_text (sha256d : bytes -> bytes) (version : N) (hash : bytes) (s : str) : Prop :=
  base58 ((version :: hash) ++ firstn 4 (sha256d (version :: hash))) s.
(** the text of an address; witness programs have their text in lower case *)
Definition address_text (sha256d : bytes -> bytes) (a : address) (s : str) : Prop :=
  match a with
  | AP2pkh h NMain => check_text sha256d 0 h s
  | AP2sh h NMain => check_text sha256d 5 h s
  | AP2pkh h NTest => check_text sha256d 111 h s
  | AP2sh h NTest => check_text sha256d 196 h s
  | ASegwit p k => segwit_text (prefix_text k) (wp_version p) (wp_program p) s
  end.
Definition is_segwit (a : address) : Prop := match a with ASegwit _ _ => True | _ => False end.
(** the networks an address may be used on *)
Definition usable_on (a : address) (n : network) : Prop :=
  match a with
  | AP2pkh _ k | AP2sh _ k => k = NMain <-> n = Bitcoin
  | ASegwit _ HMainnet => n = Bitcoin
  | ASegwit _ HTestnets => n = Testnet3 \/ n = Testnet4 \/ n = Signet
  | ASegwit _ HRegtest => n = Regtest
  end.
(** the number of places where two texts differ *)
Fixpoint differences (s t : str) : N :=
  match s, t with
  | a :: s', b :: t' => (if a =? b then 0 else 1) + differences s' t'
  | _, _ => 0
  end.
