(** What the documentation of the trait Decoder promises about a decoder that has answered Ready
    (consensus_encoding/src/decode/mod.rs:66-67): later calls answer Ready again and consume nothing. *)
From Verif Require Import Base MDec.
Local Open Scope N_scope.

(** the slices [ms] are pushed one after the other; each is answered with Ready and left whole, and the result is unchanged *)
Fixpoint idle {A E} (D : decoder A E) (s : st D) (ms : list bytes) : Prop :=
  match ms with
  | [] => True
  | m :: ms' => exists s', push D s m = (s', m, Ready) /\ fin D s' = fin D s /\ idle D s' ms'
  end.
(** whatever was pushed before, and whatever is pushed after *)
Definition stays_ready {A E} (D : decoder A E) : Prop :=
  forall s l s' l', push D s l = (s', l', Ready) -> forall ms, idle D s' ms.

(** the states a decoder can be in: nothing pushed, or a push that was answered without an error *)
Inductive fed {A E} (D : decoder A E) : st D -> Prop :=
| fed_new : fed D (init D)
| fed_more s l s' l' : fed D s -> push D s l = (s', l', NeedsMore) -> fed D s'
| fed_ready s l s' l' : fed D s -> push D s l = (s', l', Ready) -> fed D s'.
(** mod.rs:107-109: a decoder that is done advertises a read limit of 0 *)
Definition limit_when_ready {A E} (D : decoder A E) : Prop :=
  forall s l s' l', fed D s -> push D s l = (s', l', Ready) -> lim D s' = 0.
