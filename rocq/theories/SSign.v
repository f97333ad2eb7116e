(** The laws of the group of secp256k1 and the signatures of BIP-0340, written down from the standard. *)
From Coq Require Import String.
From Verif Require Import Base MTaproot MSighash MSign MText MBip32.
From Verif Require Import STaproot.
Local Open Scope N_scope.

(** A commutative group, generated by [g_gen], of order exactly [CURVE_ORDER]; every point but infinity has an x coordinate of 32 bytes; a point and its
    opposite, and no others, share it; exactly one of the two has an odd y. *)
Record group_ok (E : group) : Prop := {
  add_assoc : forall a b c, g_add E a (g_add E b c) = g_add E (g_add E a b) c;
  add_comm : forall a b, g_add E a b = g_add E b a;
  add_zero : forall a, g_add E (g_zero E) a = a;
  add_opp : forall a, g_add E a (g_opp E a) = g_zero E;
  order : forall k, g_mul E k (g_gen E) = g_zero E <-> k mod CURVE_ORDER = 0;
  cyclic : forall p, exists k, k < CURVE_ORDER /\ p = g_mul E k (g_gen E);
  x_none : forall p, g_x E p = None <-> p = g_zero E;
  x_32 : forall p b, g_x E p = Some b -> hash_ok b;
  x_same : forall p q b, g_x E p = Some b -> (g_x E q = Some b <-> q = p \/ q = g_opp E p);
  odd_opp : forall p, p <> g_zero E -> g_odd E (g_opp E p) = negb (g_odd E p);
  lift_iff : forall b p, g_lift E b = Some p <-> g_x E p = Some b /\ g_odd E p = false }.

(** BIP-0340: [sig] is a signature of [msg] under the x-only key [px], when it is the x coordinate of a point R with even y followed by a number s below
    the order, and R = s*G - e*P, where P is the point with x coordinate [px] and even y and e is the challenge. *)
Definition bip340 (E : group) (H : bytes -> bytes) (px msg sig : bytes) : Prop :=
  exists P R rx s, g_x E P = Some px /\ g_odd E P = false /\ g_x E R = Some rx /\ g_odd E R = false /\ s < CURVE_ORDER /\ sig = rx ++ be_bytes 32 s /\
    g_add E R (g_mul E (be_val (tag_hash H (lit "BIP0340/challenge") (rx ++ px ++ msg)) mod CURVE_ORDER) P) = g_mul E s (g_gen E).
Definition nonce_ok (nonce : N -> bytes -> option bytes -> N) : Prop := forall d m a, 0 < nonce d m a < CURVE_ORDER.
Definition secret_ok (d : N) : Prop := 0 < d < CURVE_ORDER.
