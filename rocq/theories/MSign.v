(** Key pairs, tweaking of secret keys and signing: crypto/src/key.rs, taproot_primitives/src/lib.rs:416-440, bitcoin/src/crypto/sighash.rs:125-155.
    libsecp256k1 is a dependency, not in /repo: it is modelled after its documentation over an abstract group (record [group], the laws are in
    SSign.v), with the nonce of a signature chosen by an arbitrary function.  Secret keys are numbers.
    Not modelled: generate, erasing of memory, Debug, Keypair's own text and serde forms (libsecp256k1's). *)
From Coq Require Import String Bool.
From Verif Require Import Base MDec MText MBip32 MWitness MKey MTaproot MSighash MSig.
Local Open Scope N_scope.

(** * libsecp256k1 *)
(** points with infinity ([g_zero]), the generator, the x coordinate (none for infinity), the oddness of y, and the point with a given x and even y *)
Record group := mk_group {
  g_pt : Type; g_zero : g_pt; g_add : g_pt -> g_pt -> g_pt; g_opp : g_pt -> g_pt; g_gen : g_pt;
  g_x : g_pt -> option bytes; g_odd : g_pt -> bool; g_lift : bytes -> option g_pt }.

Section Sign.
  Variable E : group.
  Variable H : bytes -> bytes.
  Definition g_mul (k : N) (p : g_pt E) : g_pt E := N.iter k (g_add E p) (g_zero E).
  (** x-only keys: XOnlyPublicKey::from_byte_array, serialize, add_tweak and tweak_add_check of libsecp256k1 *)
  Definition liftable (b : bytes) : bool := match g_lift E b with Some _ => true | None => false end.
  Definition gk : Type := {b : bytes | liftable b = true}.
  Definition gk_make (b : bytes) : option gk := match bool_dec (liftable b) true with left p => Some (exist _ b p) | right _ => None end.
  Definition gk_of_point (p : g_pt E) : option (gk * bool) :=
    match g_x E p with None => None | Some b => match gk_make b with None => None | Some k => Some (k, g_odd E p) end end.
  Definition gk_add (k : gk) (t : N) : option (gk * bool) :=
    match g_lift E (proj1_sig k) with None => None | Some p => gk_of_point (g_add E p (g_mul t (g_gen E))) end.
  Definition gk_check (k out : gk) (odd : bool) (t : N) : bool :=
    match gk_add k t with None => false | Some (k', o) => beqb (proj1_sig k') (proj1_sig out) && Bool.eqb o odd end.
  Definition lib_curve : curve := mk_curve gk (@proj1_sig _ _) gk_make gk_add gk_check.
  (** secp256k1_keypair_xonly_tweak_add: the secret key is negated first if the public key has an odd y; fails on zero *)
  Definition even_secret (d : N) : N := if g_odd E (g_mul d (g_gen E)) then CURVE_ORDER - d else d.
  Definition lib_add_xonly_tweak (d t : N) : option N := let d' := (even_secret d + t) mod CURVE_ORDER in if d' =? 0 then None else Some d'.
  (** schnorr::sign_with_aux_rand, sign_no_aux_rand and sign, as in BIP-0340; [nonce] gives the nonce for the (even) secret key, the message and
      the auxiliary randomness, if any *)
  Variable nonce : N -> bytes -> option bytes -> N.
  Definition CHALLENGE : bytes := lit "BIP0340/challenge".
  Definition challenge (rx px msg : bytes) : N := be_val (tag_hash H CHALLENGE (rx ++ px ++ msg)) mod CURVE_ORDER.
  Definition lib_schnorr_sign (msg : bytes) (d : N) (aux : option bytes) : rust bytes :=
    let d0 := even_secret d in
    let k0 := nonce d0 msg aux in
    match g_x E (g_mul k0 (g_gen E)), g_x E (g_mul d (g_gen E)) with
    | Some rx, Some px => Ret (rx ++ be_bytes 32 ((even_secret k0 + challenge rx px msg * d0) mod CURVE_ORDER))
    | _, _ => Panic
    end.
  (** schnorr::verify, as in BIP-0340 *)
  Definition opt_eqb (a : option bytes) (b : bytes) : bool := match a with Some x => beqb x b | None => false end.
  Definition lib_schnorr_verify (sig msg : bytes) (k : gk) : bool :=
    let rx := takeN 32 sig in
    let s := be_val (dropN 32 sig) in
    match g_lift E (proj1_sig k) with
    | None => false
    | Some p =>
        let r := g_add E (g_mul s (g_gen E)) (g_opp E (g_mul (challenge rx (proj1_sig k) msg) p)) in
        (lenN sig =? 64) && (s <? CURVE_ORDER) && opt_eqb (g_x E r) rx && negb (g_odd E r)
    end.

  (** * crypto/src/key.rs *)
  (** Keypair :106 is its secret key; TweakedKeypair :286 and TweakedPublicKey :232 are newtypes *)
  Definition keypair := N.
  Notation xo := (xonly lib_curve).
  (** From<secp256k1::PublicKey> for XOnlyPublicKey :483-489 (the point is never infinity); from_keypair :384-387; Keypair::to_x_only_public_key :572 *)
  Definition xonly_of_point (p : g_pt E) : rust xo :=
    match gk_of_point p with Some (k, o) => Ret (@mk_xonly lib_curve k o) | None => Panic end.
  Definition kp_public (d : keypair) : g_pt E := g_mul d (g_gen E).
  Definition kp_xonly (d : keypair) : rust xo := xonly_of_point (kp_public d).
  (** XOnlyPublicKey::to_public_key :413 *)
  Definition xo_to_public (k : xo) : rust (g_pt E) :=
    match g_lift E (proj1_sig (xo_key k)) with None => Panic | Some p => Ret (if xo_odd k then g_opp E p else p) end.
  (** from_private_key :540-542, to_private_key :546-548; PrivateKey::negate :1132-1137 *)
  Definition kp_of_private (k : private) : keypair := pk_key k.
  Definition kp_to_private (d : keypair) : private := mk_private true d.
  Definition negate_private (k : private) : private := mk_private (pk_compressed k) (CURVE_ORDER - pk_key k).
  (** raw_bip340_sign :579-589: with the features rand and std the auxiliary randomness is drawn, else there is none; with_aux_randomness :593-599 *)
  Definition raw_bip340_sign (d : keypair) (msg : bytes) (drawn : option bytes) : rust bytes := lib_schnorr_sign msg d drawn.
  Definition raw_bip340_sign_aux (d : keypair) (msg aux : bytes) : rust bytes := lib_schnorr_sign msg d (Some aux).
  (** XOnlyPublicKey::verify :458-460: the sighash type of the signature plays no role *)
  Definition xo_verify (k : xo) (msg : bytes) (sig : tsig) : bool := lib_schnorr_verify (ts_sig sig) msg (xo_key k).
  (** TapTweak for UntweakedKeypair, taproot_primitives/src/lib.rs:430-435 *)
  Definition kp_tap_tweak (d : keypair) (root : option bytes) : rust keypair :=
    rbind (kp_xonly d) (fun pubkey =>
    rbind (to_scalar (tweak_hash H lib_curve pubkey root)) (fun tweak =>
    match lib_add_xonly_tweak d tweak with Some d' => Ret d' | None => Panic end)).
  (** TweakedKeypair::public_parts, key.rs:1538-1541 *)
  Definition public_parts (d : keypair) : rust (xo * bool) := rbind (kp_xonly d) (fun x => Ret (x, xo_odd x)).
  (** TapSighash::sign_key_spend, sighash.rs:132-139 (with a tweaked key pair), sign_script_spend :147-154 (with an untweaked one) *)
  Definition sign_key_spend (sighash : bytes) (kp : keypair) (ty : tap_type) (drawn : option bytes) : rust tsig :=
    rbind (raw_bip340_sign kp sighash drawn) (fun s => Ret (mk_tsig s ty)).
  Definition sign_script_spend (sighash : bytes) (kp : keypair) (ty : tap_type) (drawn : option bytes) : rust tsig :=
    rbind (raw_bip340_sign kp sighash drawn) (fun s => Ret (mk_tsig s ty)).
End Sign.
