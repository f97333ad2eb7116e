(** [received D n s]: the decoder can be in state [s] after consuming [n] bytes, by any sequence of
    pushes of any slices (whatever the statuses of the earlier pushes). *)
From Verif Require Import Base MDec.
Local Open Scope N_scope.
Inductive received {A E} (D : decoder A E) : N -> st D -> Prop :=
| received_init : received D 0 (init D)
| received_push n s l s' r x : received D n s -> push D s l = (s', r, x) ->
    received D (n + (lenN l - lenN r)) s'.
(** as long as every push asked for more *)
Inductive pending {A E} (D : decoder A E) : N -> st D -> Prop :=
| pending_init : pending D 0 (init D)
| pending_push n s l s' r : pending D n s -> push D s l = (s', r, NeedsMore) ->
    pending D (n + (lenN l - lenN r)) s'.
