(** What the SHA-256 engine's midstates stand for, and the histories of an engine. *)
From Verif Require Import Base MDec MHash MSha2 SHash SSha2.
Local Open Scope N_scope.

(** the state and byte count after the whole blocks [m] *)
Definition midstate_of (m : bytes) : midstate := Mid (out sha256_std (iterate 64 (compress sha256_std) iv256 m)) (lenN m).
(** [history e m]: the engine [e] was obtained from a new one by feeding [m], in any pieces, and by any number of
    extractions of a midstate from which a new engine was started (after an error: from the midstate in the error,
    feeding it the unprocessed bytes reported with it) *)
Inductive history : engine256 -> bytes -> Prop :=
| h_new : history sha256_new []
| h_input : forall e m x e', history e m -> bytes_ok x -> sha256_input e x = Ret e' -> history e' (m ++ x)
| h_midstate : forall e m s, history e m -> engine_midstate e = Ok s -> history (to_engine s) m
| h_error : forall e m er e', history e m -> engine_midstate e = Err er ->
    sha256_input (to_engine (me_mid er)) (takeN (me_len er) (me_bytes er)) = Ret e' -> history e' m.
