(** The names of the 256 opcodes, and the text of a script: the name of each opcode followed by the hexadecimal of the data it pushes, if
    any, separated by single spaces. *)
From Coq Require Import String.
From Verif Require Import Base MText MScript SScript.
Local Open Scope N_scope.

Definition opcode_names : list str :=
  [lit "OP_0"; lit "OP_PUSHBYTES_1"; lit "OP_PUSHBYTES_2"; lit "OP_PUSHBYTES_3"; lit "OP_PUSHBYTES_4"; 
   lit "OP_PUSHBYTES_5"; lit "OP_PUSHBYTES_6"; lit "OP_PUSHBYTES_7"; lit "OP_PUSHBYTES_8"; lit "OP_PUSHBYTES_9"; lit "OP_PUSHBYTES_10"; 
   lit "OP_PUSHBYTES_11"; lit "OP_PUSHBYTES_12"; lit "OP_PUSHBYTES_13"; lit "OP_PUSHBYTES_14"; lit "OP_PUSHBYTES_15"; lit "OP_PUSHBYTES_16"; 
   lit "OP_PUSHBYTES_17"; lit "OP_PUSHBYTES_18"; lit "OP_PUSHBYTES_19"; lit "OP_PUSHBYTES_20"; lit "OP_PUSHBYTES_21"; lit "OP_PUSHBYTES_22"; 
   lit "OP_PUSHBYTES_23"; lit "OP_PUSHBYTES_24"; lit "OP_PUSHBYTES_25"; lit "OP_PUSHBYTES_26"; lit "OP_PUSHBYTES_27"; lit "OP_PUSHBYTES_28"; 
   lit "OP_PUSHBYTES_29"; lit "OP_PUSHBYTES_30"; lit "OP_PUSHBYTES_31"; lit "OP_PUSHBYTES_32"; lit "OP_PUSHBYTES_33"; lit "OP_PUSHBYTES_34"; 
   lit "OP_PUSHBYTES_35"; lit "OP_PUSHBYTES_36"; lit "OP_PUSHBYTES_37"; lit "OP_PUSHBYTES_38"; lit "OP_PUSHBYTES_39"; lit "OP_PUSHBYTES_40"; 
   lit "OP_PUSHBYTES_41"; lit "OP_PUSHBYTES_42"; lit "OP_PUSHBYTES_43"; lit "OP_PUSHBYTES_44"; lit "OP_PUSHBYTES_45"; lit "OP_PUSHBYTES_46"; 
   lit "OP_PUSHBYTES_47"; lit "OP_PUSHBYTES_48"; lit "OP_PUSHBYTES_49"; lit "OP_PUSHBYTES_50"; lit "OP_PUSHBYTES_51"; lit "OP_PUSHBYTES_52"; 
   lit "OP_PUSHBYTES_53"; lit "OP_PUSHBYTES_54"; lit "OP_PUSHBYTES_55"; lit "OP_PUSHBYTES_56"; lit "OP_PUSHBYTES_57"; lit "OP_PUSHBYTES_58"; 
   lit "OP_PUSHBYTES_59"; lit "OP_PUSHBYTES_60"; lit "OP_PUSHBYTES_61"; lit "OP_PUSHBYTES_62"; lit "OP_PUSHBYTES_63"; lit "OP_PUSHBYTES_64"; 
   lit "OP_PUSHBYTES_65"; lit "OP_PUSHBYTES_66"; lit "OP_PUSHBYTES_67"; lit "OP_PUSHBYTES_68"; lit "OP_PUSHBYTES_69"; lit "OP_PUSHBYTES_70"; 
   lit "OP_PUSHBYTES_71"; lit "OP_PUSHBYTES_72"; lit "OP_PUSHBYTES_73"; lit "OP_PUSHBYTES_74"; lit "OP_PUSHBYTES_75"; lit "OP_PUSHDATA1"; 
   lit "OP_PUSHDATA2"; lit "OP_PUSHDATA4"; lit "OP_1NEGATE"; lit "OP_RESERVED"; lit "OP_1"; lit "OP_2"; 
   lit "OP_3"; lit "OP_4"; lit "OP_5"; lit "OP_6"; lit "OP_7"; lit "OP_8"; 
   lit "OP_9"; lit "OP_10"; lit "OP_11"; lit "OP_12"; lit "OP_13"; lit "OP_14"; 
   lit "OP_15"; lit "OP_16"; lit "OP_NOP"; lit "OP_VER"; lit "OP_IF"; lit "OP_NOTIF"; 
   lit "OP_VERIF"; lit "OP_VERNOTIF"; lit "OP_ELSE"; lit "OP_ENDIF"; lit "OP_VERIFY"; lit "OP_RETURN"; 
   lit "OP_TOALTSTACK"; lit "OP_FROMALTSTACK"; lit "OP_2DROP"; lit "OP_2DUP"; lit "OP_3DUP"; lit "OP_2OVER"; 
   lit "OP_2ROT"; lit "OP_2SWAP"; lit "OP_IFDUP"; lit "OP_DEPTH"; lit "OP_DROP"; lit "OP_DUP"; 
   lit "OP_NIP"; lit "OP_OVER"; lit "OP_PICK"; lit "OP_ROLL"; lit "OP_ROT"; lit "OP_SWAP"; 
   lit "OP_TUCK"; lit "OP_CAT"; lit "OP_SUBSTR"; lit "OP_LEFT"; lit "OP_RIGHT"; lit "OP_SIZE"; 
   lit "OP_INVERT"; lit "OP_AND"; lit "OP_OR"; lit "OP_XOR"; lit "OP_EQUAL"; lit "OP_EQUALVERIFY"; 
   lit "OP_RESERVED1"; lit "OP_RESERVED2"; lit "OP_1ADD"; lit "OP_1SUB"; lit "OP_2MUL"; lit "OP_2DIV"; 
   lit "OP_NEGATE"; lit "OP_ABS"; lit "OP_NOT"; lit "OP_0NOTEQUAL"; lit "OP_ADD"; lit "OP_SUB"; 
   lit "OP_MUL"; lit "OP_DIV"; lit "OP_MOD"; lit "OP_LSHIFT"; lit "OP_RSHIFT"; lit "OP_BOOLAND"; 
   lit "OP_BOOLOR"; lit "OP_NUMEQUAL"; lit "OP_NUMEQUALVERIFY"; lit "OP_NUMNOTEQUAL"; lit "OP_LESSTHAN"; lit "OP_GREATERTHAN"; 
   lit "OP_LESSTHANOREQUAL"; lit "OP_GREATERTHANOREQUAL"; lit "OP_MIN"; lit "OP_MAX"; lit "OP_WITHIN"; lit "OP_RIPEMD160"; 
   lit "OP_SHA1"; lit "OP_SHA256"; lit "OP_HASH160"; lit "OP_HASH256"; lit "OP_CODESEPARATOR"; lit "OP_CHECKSIG"; 
   lit "OP_CHECKSIGVERIFY"; lit "OP_CHECKMULTISIG"; lit "OP_CHECKMULTISIGVERIFY"; lit "OP_NOP1"; lit "OP_CLTV"; lit "OP_CSV"; 
   lit "OP_NOP4"; lit "OP_NOP5"; lit "OP_NOP6"; lit "OP_NOP7"; lit "OP_NOP8"; lit "OP_NOP9"; 
   lit "OP_NOP10"; lit "OP_CHECKSIGADD"; lit "OP_RETURN_187"; lit "OP_RETURN_188"; lit "OP_RETURN_189"; lit "OP_RETURN_190"; 
   lit "OP_RETURN_191"; lit "OP_RETURN_192"; lit "OP_RETURN_193"; lit "OP_RETURN_194"; lit "OP_RETURN_195"; lit "OP_RETURN_196"; 
   lit "OP_RETURN_197"; lit "OP_RETURN_198"; lit "OP_RETURN_199"; lit "OP_RETURN_200"; lit "OP_RETURN_201"; lit "OP_RETURN_202"; 
   lit "OP_RETURN_203"; lit "OP_RETURN_204"; lit "OP_RETURN_205"; lit "OP_RETURN_206"; lit "OP_RETURN_207"; lit "OP_RETURN_208"; 
   lit "OP_RETURN_209"; lit "OP_RETURN_210"; lit "OP_RETURN_211"; lit "OP_RETURN_212"; lit "OP_RETURN_213"; lit "OP_RETURN_214"; 
   lit "OP_RETURN_215"; lit "OP_RETURN_216"; lit "OP_RETURN_217"; lit "OP_RETURN_218"; lit "OP_RETURN_219"; lit "OP_RETURN_220"; 
   lit "OP_RETURN_221"; lit "OP_RETURN_222"; lit "OP_RETURN_223"; lit "OP_RETURN_224"; lit "OP_RETURN_225"; lit "OP_RETURN_226"; 
   lit "OP_RETURN_227"; lit "OP_RETURN_228"; lit "OP_RETURN_229"; lit "OP_RETURN_230"; lit "OP_RETURN_231"; lit "OP_RETURN_232"; 
   lit "OP_RETURN_233"; lit "OP_RETURN_234"; lit "OP_RETURN_235"; lit "OP_RETURN_236"; lit "OP_RETURN_237"; lit "OP_RETURN_238"; 
   lit "OP_RETURN_239"; lit "OP_RETURN_240"; lit "OP_RETURN_241"; lit "OP_RETURN_242"; lit "OP_RETURN_243"; lit "OP_RETURN_244"; 
   lit "OP_RETURN_245"; lit "OP_RETURN_246"; lit "OP_RETURN_247"; lit "OP_RETURN_248"; lit "OP_RETURN_249"; lit "OP_RETURN_250"; 
   lit "OP_RETURN_251"; lit "OP_RETURN_252"; lit "OP_RETURN_253"; lit "OP_RETURN_254"; lit "OP_INVALIDOPCODE"].
Definition opcode_name (op : N) : str := nth (N.to_nat op) opcode_names [].

(** lower-case hexadecimal *)
Definition hex_digit (d : N) : N := nth (N.to_nat d) (lit "0123456789abcdef") 0.
Definition hex_text (b : bytes) : str := flat_map (fun x => [hex_digit (x / 16); hex_digit (x mod 16)]) b.

(** the words of one instruction: its encoding is an opcode, possibly a length, and the data *)
Definition instr_words (i : instr) (e : bytes) : list str :=
  opcode_name (hd 0 e) :: match i with PushBytes (x :: d) => [hex_text (x :: d)] | _ => [] end.
(** [script_words s w]: [s] is a whole number of instructions, whose words are [w] *)
Inductive script_words : bytes -> list str -> Prop :=
| words_nil : script_words [] []
| words_cons : forall i e s w, encodes i e -> script_words s w -> script_words (e ++ s) (instr_words i e ++ w).
Fixpoint spaced (w : list str) : str :=
  match w with [] => [] | [x] => x | x :: w' => x ++ lit " " ++ spaced w' end.
(** scripts cut off inside their last instruction: in the length announcing the data, or in the data *)
Inductive cut_kind := InLength | InData.
Definition length_size (op n : N) : Prop := (op = 76 /\ n = 1) \/ (op = 77 /\ n = 2) \/ (op = 78 /\ n = 4).
Inductive cut : bytes -> cut_kind -> Prop :=
| cut_length : forall op n r, length_size op n -> lenN r < n -> cut (op :: r) InLength
| cut_direct : forall op r, op <= 75 -> lenN r < op -> cut (op :: r) InData
| cut_data : forall op n a r, length_size op n -> lenN a = n -> lenN r < le_val a -> cut (op :: a ++ r) InData.
Definition cut_text (k : cut_kind) (w : list str) (s : bytes) : str :=
  match k with
  | InLength => spaced w ++ lit "<unexpected end>"
  | InData => spaced (w ++ [opcode_name (hd 0 s); lit "<push past end>"])
  end.
