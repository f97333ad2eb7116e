(** The segwit address texts of BIP173 and BIP350, written from those documents.  The bech32 crate that produces and reads them
    is a dependency, not part of /repo: this file and MBech32.v state what it is taken to do. *)
From Coq Require Import String.
From Verif Require Import Base MText SBip158.
Local Open Scope N_scope.

(** The characters of the 32 symbols. *)
Definition charset : str := lit "qpzry9x8gf2tvdw0s3jn54khce6mua7l".
Definition symbol (c v : N) : Prop := v < 32 /\ nth_error charset (N.to_nat v) = Some c.
(** The checksum: a remainder of a polynomial over GF(32), kept as six symbols of five bits. *)
Definition generators : list N := [0x3b6a57b2; 0x26508e6d; 0x1ea119fa; 0x3d4233dd; 0x2a1462b3].
Definition polymod_step (chk v : N) : N :=
  let top := N.shiftr chk 25 in
  fold_left (fun c '(i, g) => if N.testbit top i then N.lxor c g else c) (combine [0; 1; 2; 3; 4] generators)
    (N.lxor (N.shiftl (N.land chk (N.ones 25)) 5) v).
Definition polymod (values : list N) : N := fold_left polymod_step values 1.
Definition expand (hrp : str) : list N := map (fun c => N.shiftr c 5) hrp ++ [0] ++ map (fun c => N.land c 31) hrp.
(** BIP173 for version 0, BIP350 for the others *)
Definition residue (version : N) : N := if version =? 0 then 1 else 0x2bc830a3.
(** The program cut into groups of five bits, the last one padded with zero bits. *)
Definition groups (program : bytes) (g : list N) : Prop :=
  Forall (fun v => v < 32) g /\
  exists pad, (pad < 5)%nat /\ flat_map (bits_of 5) g = flat_map (bits_of 8) program ++ repeat false pad.
(** [s] is the lower case text of the program: human readable part, separator, version, program, six checksum symbols. *)
Definition segwit_text (hrp : str) (version : N) (program : bytes) (s : str) : Prop :=
  exists g check chars,
    version <= 16 /\ groups program g /\ lenN check = 6 /\ Forall (fun v => v < 32) check /\
    polymod (expand hrp ++ version :: g ++ check) = residue version /\
    Forall2 symbol chars (version :: g ++ check) /\ s = hrp ++ lit "1" ++ chars.
(** Case of ASCII letters. *)
Definition upper (s : str) : str := map (fun c => if (97 <=? c) && (c <=? 122) then c - 32 else c) s.
Definition lower (s : str) : str := map (fun c => if (65 <=? c) && (c <=? 90) then c + 32 else c) s.
