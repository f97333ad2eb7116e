(** Debug output of the iterator over a serialised taproot signature: crypto/src/taproot.rs (with the hex feature).
    Simplified: the plain form [{:?}] only, not the many-line form [{:#?}]. *)
From Coq Require Import String.
From Verif Require Import Base MDec MText MSig.
Local Open Scope N_scope.

(** Debug for SerializedSignature :231-246 is Display :249-252, which is LowerHex :255-258 *)
Definition ss_debug (s : serialized) : rust str := ts_fmt false s.
(** derive(Debug) for IntoIter :375-380 *)
Definition iter_debug (i : into_iter) : rust str :=
  rbind (ss_debug (it_sig i)) (fun t => Ret (lit "IntoIter { signature: " ++ t ++ lit ", pos: " ++ fmt_u (it_pos i) ++ lit " }")).
