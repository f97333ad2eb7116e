(** Hashing what an encoder gives, without building the bytes: hashes/src/lib.rs:178-247; the byte counters of the engines. *)
From Verif Require Import Base MDec MHash MSha2 MHash2 MHmac MTx MEnc.
Local Open Scope N_scope.

(** drain_to_engine hashes/src/lib.rs:213-224; fuel for the loop, [None] when it runs out.  [input] is the engine's. *)
Fixpoint drain_to_engine {G} (input : G -> bytes -> rust G) (fuel : nat) (e : enc) (engine : G) : option (rust G) :=
  match fuel with
  | O => None
  | S fuel' =>
      match chunk e with
      | Panic => Some Panic
      | Ret ch =>
          match input engine ch with
          | Panic => Some Panic
          | Ret engine =>
              match adv e with
              | Panic => Some Panic
              | Ret (_, false) => Some (Ret engine)
              | Ret (e', true) => drain_to_engine input fuel' e' engine
              end
          end
      end
  end.
(** encode_to_engine :203-210: [e] is what object.encoder() gives *)
Definition encode_to_engine {G} (input : G -> bytes -> rust G) (fuel : nat) (e : rust enc) (engine : G) : option (rust G) :=
  match e with Panic => Some Panic | Ret e => drain_to_engine input fuel e engine end.
(** drain_to_hash :238-246, encode_to_hash :227-235 *)
Definition drain_to_hash (h : hasher) (fuel : nat) (e : enc) : option (rust bytes) :=
  match drain_to_engine (h_input h) fuel e (h_default h) with Some r => Some (rbind r (h_finalize h)) | None => None end.
Definition encode_to_hash (h : hasher) (fuel : nat) (e : rust enc) : option (rust bytes) :=
  match encode_to_engine (h_input h) fuel e (h_default h) with Some r => Some (rbind r (h_finalize h)) | None => None end.
(** with_input :180-183 *)
Definition with_input (h : hasher) (e : engine256) (data : bytes) : rust engine256 := h_input h e data.
(** n_bytes_hashed: sha256/mod.rs:171, sha512/mod.rs:129, sha1/mod.rs:87, ripemd160/mod.rs:96, sha3_256/mod.rs:219 and the wrappers
    sha256d/mod.rs:53, sha256t/mod.rs:151, sha384/mod.rs:40, sha512_256/mod.rs:53, hash160/mod.rs:49 *)
Definition n_bytes_hashed (e : engine256) : N := e_n e.
(** hmac/mod.rs:157 *)
Definition hmac_n_bytes_hashed (e : hmac_engine) : N := n_bytes_hashed (iengine e).
