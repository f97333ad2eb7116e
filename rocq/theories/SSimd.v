(** The machines the SHA-256 theorems range over: every build and processor on which the detection of features
    reports only features that the processor has; and the histories of an engine that may move between machines. *)
From Verif Require Import Base MDec MHash MSha2 SHash SSha2 MSimd.
Local Open Scope N_scope.
Definition honest (m : machine) : Prop := (forall f, m_std_detects m f = true -> m_has m f = true) /\ (forall f, m_cpuf_detects m f = true -> m_has m f = true).
(** [history_on e msg]: the engine [e] was obtained from a new one by feeding [msg], in any pieces, each on some machine,
    and by any number of extractions of a midstate from which a new engine was started *)
Inductive history_on : engine256 -> bytes -> Prop :=
| ho_new : history_on sha256_new []
| ho_input : forall m e msg x e', honest m -> history_on e msg -> bytes_ok x -> input_on m e x = Ret e' -> history_on e' (msg ++ x)
| ho_midstate : forall e msg s, history_on e msg -> engine_midstate e = Ok s -> history_on (to_engine s) msg
| ho_error : forall m e msg er e', honest m -> history_on e msg -> engine_midstate e = Err er ->
    input_on m (to_engine (me_mid er)) (takeN (me_len er) (me_bytes er)) = Ret e' -> history_on e' msg.
