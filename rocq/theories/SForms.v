(** How outputs are unlocked, from BIP16, BIP141 and BIP341, up to running the script: an output script, an input script and a witness
    lead to one script with its initial stack, or to one signature check. *)
From Coq Require Import String.
From Verif Require Import Base MDec MText SWire MScript SScript MTaproot STaproot SWitness2.
Local Open Scope list_scope.
Local Open Scope N_scope.

Inductive run := Run (script : bytes) (stack : list bytes) | CheckSig (key sig : bytes).
(** BIP341: a signature is 64 bytes, or 65 with a type byte that is one of six *)
Definition schnorr_form (sig : bytes) : Prop :=
  lenN sig = 64 \/ exists r b, sig = r ++ [b] /\ lenN r = 64 /\ In b [0x01; 0x02; 0x03; 0x81; 0x82; 0x83].

Section Unlock.
  Variable hash160 sha256 : bytes -> bytes.
  Variable T : curve.
  (** BIP341: the control block shows that the script is in the tree that the output key commits to *)
  Definition bip341_commits (program script control : bytes) : Prop :=
    exists c key path p q, control = c :: key ++ concat path /\ lenN key = 32 /\ Forall (fun h => lenN h = 32) path /\ lenN path <= 128 /\
      c_parse T key = Some p /\
      let leaf := sha256 (sha256 (lit "TapLeaf") ++ sha256 (lit "TapLeaf") ++ [N.land c 0xfe] ++ wire_bytes script) in
      let t := be_val (sha256 (tweak_message sha256 key (Some (climb sha256 leaf path)))) in
      t < CURVE_ORDER /\ c_add T p t = Some (q, N.testbit c 0) /\ c_ser T q = program.

  Inductive unlocks_program : N -> bytes -> list bytes -> run -> Prop :=
  (** version 0, twenty bytes: a signature and the key with that hash *)
  | u_key_hash : forall h sig key, lenN h = 20 -> hash160 key = h -> unlocks_program 0 h [sig; key] (Run (t_p2pkh h) [sig; key])
  (** version 0, thirty-two bytes: the last element is the script with that hash, at most 10000 bytes; the others, at most 520 bytes each, are its stack *)
  | u_script_hash : forall h script stack, lenN h = 32 -> sha256 script = h -> lenN script <= 10000 -> Forall (fun e => lenN e <= 520) stack ->
      unlocks_program 0 h (stack ++ [script]) (Run script stack)
  (** version 1, thirty-two bytes, one element besides the annex: a signature for the output key *)
  | u_key_path : forall key w sig, lenN key = 32 -> bip341_rest w = [sig] -> schnorr_form sig -> unlocks_program 1 key w (CheckSig key sig)
  (** or a stack, a script and a control block *)
  | u_script_path : forall key w stack script control, lenN key = 32 -> bip341_rest w = stack ++ [script; control] -> bip341_commits key script control ->
      unlocks_program 1 key w (Run script stack).
  Inductive unlocks : bytes -> bytes -> list bytes -> run -> Prop :=
  (** BIP141: for a witness program the input script is empty *)
  | u_native : forall v p w r, unlocks_program v p w r -> unlocks (t_witness v p) [] w r
  (** BIP16 and BIP141: the input script is exactly one push, of at most 520 bytes, with that hash, which is a version 0 program *)
  | u_nested : forall h redeem p input w r, lenN h = 20 -> hash160 redeem = h -> redeem = t_witness 0 p -> lenN redeem <= 520 -> encodes (PushBytes redeem) input -> shortest (PushBytes redeem) input ->
      unlocks_program 0 p w r -> unlocks (t_p2sh h) input w r.
End Unlock.

(** The opcodes that end a script of the original kind as failed when they are executed (OP_RETURN, the reserved, disabled and unknown ones). *)
Definition fails_when_run (op : N) : Prop :=
  In op [80; 98; 101; 102; 106; 126; 127; 128; 129; 131; 132; 133; 134; 137; 138; 141; 142; 149; 150; 151; 152; 153] \/ 186 <= op.
