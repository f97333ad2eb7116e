(** Alerts: p2p/src/message_network.rs:533-586.  An alert is its byte vector; writing and reading it is in MP2pMsg (MAlert). *)
From Verif Require Import Base MWitness.
Local Open Scope N_scope.

(** FINAL_ALERT :540-547 *)
Definition FINAL_ALERT : bytes :=
  [1; 0; 0; 0; 0; 0; 0; 0; 0; 0; 0; 0; 255; 255; 255; 127; 0; 0; 0; 0; 255; 255; 255; 127;
   254; 255; 255; 127; 1; 255; 255; 255; 127; 0; 0; 0; 0; 255; 255; 255; 127; 0; 255; 255;
   255; 127; 0; 47; 85; 82; 71; 69; 78; 84; 58; 32; 65; 108; 101; 114; 116; 32; 107; 101; 121;
   32; 99; 111; 109; 112; 114; 111; 109; 105; 115; 101; 100; 44; 32; 117; 112; 103; 114; 97;
   100; 101; 32; 114; 101; 113; 117; 105; 114; 101; 100; 0].
(** final_alert :550 *)
Definition final_alert : bytes := FINAL_ALERT.
(** is_final_alert :553 *)
Definition is_final_alert (a : bytes) : bool := beqb a FINAL_ALERT.
