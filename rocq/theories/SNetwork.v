(** What Bitcoin Core fixes for each network (chainparamsbase.cpp, chainparams.cpp), as texts and numbers. *)
From Coq Require Import String.
From Verif Require Import Base MText MPow.
Local Open Scope N_scope.

(** The chain names of Core's -chain argument and of its getblockchaininfo call. *)
Definition core_name (n : network) : str :=
  match n with Bitcoin => lit "main" | Testnet3 => lit "test" | Testnet4 => lit "testnet4" | Signet => lit "signet" | Regtest => lit "regtest" end.
(** The names this library prints. *)
Definition own_name (n : network) : str :=
  match n with Bitcoin => lit "bitcoin" | Testnet3 => lit "testnet" | Testnet4 => lit "testnet4" | Signet => lit "signet" | Regtest => lit "regtest" end.
(** pchMessageStart *)
Definition core_magic (n : network) : str :=
  match n with Bitcoin => lit "f9beb4d9" | Testnet3 => lit "0b110907" | Testnet4 => lit "1c163f28" | Signet => lit "0a03cf40" | Regtest => lit "fabfb5da" end.
(** nDefaultPort, and the port of the RPC server *)
Definition core_port (n : network) : N :=
  match n with Bitcoin => 8333 | Testnet3 => 18333 | Testnet4 => 48333 | Signet => 38333 | Regtest => 18444 end.
Definition core_rpc_port (n : network) : N :=
  match n with Bitcoin => 8332 | Testnet3 => 18332 | Testnet4 => 48332 | Signet => 38332 | Regtest => 18443 end.
(** hashGenesisBlock and its hashMerkleRoot, printed as Core prints hashes: the last byte first. *)
Definition core_genesis (n : network) : str :=
  match n with
  | Bitcoin => lit "000000000019d6689c085ae165831e934ff763ae46a2a6c172b3f1b60a8ce26f"
  | Testnet3 => lit "000000000933ea01ad0ee984209779baaec3ced90fa3f408719526f8d77f4943"
  | Testnet4 => lit "00000000da84f2bafbbc53dee25a72ae507ff4914b867c565be350b0da8bf043"
  | Signet => lit "00000008819873e925422c1ff0f99f7cc9bbb232af63a077a480a3633bee1ef6"
  | Regtest => lit "0f9188f13cb7b2c71f2a335e3a4fc328bf5beb436012afca590b1a11466e2206"
  end.
Definition core_genesis_root (n : network) : str :=
  match n with
  | Testnet4 => lit "7aa0a7ae1e223414cb807e40cd57e667b718e42aaf9306db9102fe28912b7b4e"
  | _ => lit "4a5e1e4baab89f3a32518a88c31bc87f618f76673e2cc77ab2127b7afdeda33b"
  end.

(** Service bits with a name, and the text of a set of services: the names of the named bits that are set, lowest first, then the other
    bits as one hex number, with bars between. *)
Definition service_names : list (N * str) :=
  [(0, lit "NETWORK"); (1, lit "GETUTXO"); (2, lit "BLOOM"); (3, lit "WITNESS"); (6, lit "COMPACT_FILTERS"); (10, lit "NETWORK_LIMITED");
   (11, lit "P2P_V2")].
Fixpoint with_bars (l : list str) : str :=
  match l with [] => [] | [x] => x | x :: l' => x ++ lit "|" ++ with_bars l' end.
Definition services_text (set rest : N) (hex_rest : str) : str :=
  lit "ServiceFlags(" ++
  (if set =? 0 then lit "NONE"
   else with_bars (map snd (filter (fun f => N.testbit set (fst f)) service_names) ++ if rest =? 0 then [] else [lit "0x" ++ hex_rest])) ++
  lit ")".
