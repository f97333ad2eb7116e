(** Opcode names and the text of a script: primitives/src/opcodes.rs, primitives/src/script/mod.rs and
    bitcoin/src/blockdata/opcodes.rs.  Formatting parameters (width, precision) are not modelled. *)
From Coq Require Import String.
From Verif Require Import Base MDec MText MScript.
Local Open Scope N_scope.

(** primitives/src/opcodes.rs:198-276: the arms that write a fixed text, 0x61 to 0xaf *)
Definition fixed_names : list str :=
  [lit "OP_NOP"; lit "OP_VER"; lit "OP_IF"; lit "OP_NOTIF"; lit "OP_VERIF"; 
   lit "OP_VERNOTIF"; lit "OP_ELSE"; lit "OP_ENDIF"; lit "OP_VERIFY"; lit "OP_RETURN"; lit "OP_TOALTSTACK"; 
   lit "OP_FROMALTSTACK"; lit "OP_2DROP"; lit "OP_2DUP"; lit "OP_3DUP"; lit "OP_2OVER"; lit "OP_2ROT"; 
   lit "OP_2SWAP"; lit "OP_IFDUP"; lit "OP_DEPTH"; lit "OP_DROP"; lit "OP_DUP"; lit "OP_NIP"; 
   lit "OP_OVER"; lit "OP_PICK"; lit "OP_ROLL"; lit "OP_ROT"; lit "OP_SWAP"; lit "OP_TUCK"; 
   lit "OP_CAT"; lit "OP_SUBSTR"; lit "OP_LEFT"; lit "OP_RIGHT"; lit "OP_SIZE"; lit "OP_INVERT"; 
   lit "OP_AND"; lit "OP_OR"; lit "OP_XOR"; lit "OP_EQUAL"; lit "OP_EQUALVERIFY"; lit "OP_RESERVED1"; 
   lit "OP_RESERVED2"; lit "OP_1ADD"; lit "OP_1SUB"; lit "OP_2MUL"; lit "OP_2DIV"; lit "OP_NEGATE"; 
   lit "OP_ABS"; lit "OP_NOT"; lit "OP_0NOTEQUAL"; lit "OP_ADD"; lit "OP_SUB"; lit "OP_MUL"; 
   lit "OP_DIV"; lit "OP_MOD"; lit "OP_LSHIFT"; lit "OP_RSHIFT"; lit "OP_BOOLAND"; lit "OP_BOOLOR"; 
   lit "OP_NUMEQUAL"; lit "OP_NUMEQUALVERIFY"; lit "OP_NUMNOTEQUAL"; lit "OP_LESSTHAN"; lit "OP_GREATERTHAN"; lit "OP_LESSTHANOREQUAL"; 
   lit "OP_GREATERTHANOREQUAL"; lit "OP_MIN"; lit "OP_MAX"; lit "OP_WITHIN"; lit "OP_RIPEMD160"; lit "OP_SHA1"; 
   lit "OP_SHA256"; lit "OP_HASH160"; lit "OP_HASH256"; lit "OP_CODESEPARATOR"; lit "OP_CHECKSIG"; lit "OP_CHECKSIGVERIFY"; 
   lit "OP_CHECKMULTISIG"; lit "OP_CHECKMULTISIGVERIFY"].
(** fmt_opcode primitives/src/opcodes.rs:188-284; 0xb1 and 0xb2 come before the range 0xb0..=0xb9 *)
Definition fmt_opcode (op : N) : str :=
  if op =? 0 then lit "OP_0"
  else if op <=? 0x4b then lit "OP_PUSHBYTES_" ++ fmt_u op
  else if op =? 0x4c then lit "OP_PUSHDATA1"
  else if op =? 0x4d then lit "OP_PUSHDATA2"
  else if op =? 0x4e then lit "OP_PUSHDATA4"
  else if op =? 0x4f then lit "OP_1NEGATE"
  else if op =? 0x50 then lit "OP_RESERVED"
  else if op <=? 0x60 then lit "OP_" ++ fmt_u (op - 0x50)
  else if op <=? 0xaf then nth (N.to_nat (op - 0x61)) fixed_names []
  else if op =? 0xb1 then lit "OP_CLTV"
  else if op =? 0xb2 then lit "OP_CSV"
  else if op <=? 0xb9 then lit "OP_NOP" ++ fmt_u (op - 0xb0 + 1)
  else if op =? 0xba then lit "OP_CHECKSIGADD"
  else if op <=? 0xfe then lit "OP_RETURN_" ++ fmt_u op
  else lit "OP_INVALIDOPCODE".

(** The constants of opcode_to_str in the order of its arms: bitcoin/src/blockdata/opcodes.rs:118-313 with the values of
    primitives/src/opcodes.rs:74-154 *)
Definition opcode_consts : list (N * str) :=
  [(0, lit "OP_PUSHBYTES_0"); (1, lit "OP_PUSHBYTES_1"); (2, lit "OP_PUSHBYTES_2"); (3, lit "OP_PUSHBYTES_3"); 
   (4, lit "OP_PUSHBYTES_4"); (5, lit "OP_PUSHBYTES_5"); (6, lit "OP_PUSHBYTES_6"); (7, lit "OP_PUSHBYTES_7"); (8, lit "OP_PUSHBYTES_8"); 
   (9, lit "OP_PUSHBYTES_9"); (10, lit "OP_PUSHBYTES_10"); (11, lit "OP_PUSHBYTES_11"); (12, lit "OP_PUSHBYTES_12"); (13, lit "OP_PUSHBYTES_13"); 
   (14, lit "OP_PUSHBYTES_14"); (15, lit "OP_PUSHBYTES_15"); (16, lit "OP_PUSHBYTES_16"); (17, lit "OP_PUSHBYTES_17"); (18, lit "OP_PUSHBYTES_18"); 
   (19, lit "OP_PUSHBYTES_19"); (20, lit "OP_PUSHBYTES_20"); (21, lit "OP_PUSHBYTES_21"); (22, lit "OP_PUSHBYTES_22"); (23, lit "OP_PUSHBYTES_23"); 
   (24, lit "OP_PUSHBYTES_24"); (25, lit "OP_PUSHBYTES_25"); (26, lit "OP_PUSHBYTES_26"); (27, lit "OP_PUSHBYTES_27"); (28, lit "OP_PUSHBYTES_28"); 
   (29, lit "OP_PUSHBYTES_29"); (30, lit "OP_PUSHBYTES_30"); (31, lit "OP_PUSHBYTES_31"); (32, lit "OP_PUSHBYTES_32"); (33, lit "OP_PUSHBYTES_33"); 
   (34, lit "OP_PUSHBYTES_34"); (35, lit "OP_PUSHBYTES_35"); (36, lit "OP_PUSHBYTES_36"); (37, lit "OP_PUSHBYTES_37"); (38, lit "OP_PUSHBYTES_38"); 
   (39, lit "OP_PUSHBYTES_39"); (40, lit "OP_PUSHBYTES_40"); (41, lit "OP_PUSHBYTES_41"); (42, lit "OP_PUSHBYTES_42"); (43, lit "OP_PUSHBYTES_43"); 
   (44, lit "OP_PUSHBYTES_44"); (45, lit "OP_PUSHBYTES_45"); (46, lit "OP_PUSHBYTES_46"); (47, lit "OP_PUSHBYTES_47"); (48, lit "OP_PUSHBYTES_48"); 
   (49, lit "OP_PUSHBYTES_49"); (50, lit "OP_PUSHBYTES_50"); (51, lit "OP_PUSHBYTES_51"); (52, lit "OP_PUSHBYTES_52"); (53, lit "OP_PUSHBYTES_53"); 
   (54, lit "OP_PUSHBYTES_54"); (55, lit "OP_PUSHBYTES_55"); (56, lit "OP_PUSHBYTES_56"); (57, lit "OP_PUSHBYTES_57"); (58, lit "OP_PUSHBYTES_58"); 
   (59, lit "OP_PUSHBYTES_59"); (60, lit "OP_PUSHBYTES_60"); (61, lit "OP_PUSHBYTES_61"); (62, lit "OP_PUSHBYTES_62"); (63, lit "OP_PUSHBYTES_63"); 
   (64, lit "OP_PUSHBYTES_64"); (65, lit "OP_PUSHBYTES_65"); (66, lit "OP_PUSHBYTES_66"); (67, lit "OP_PUSHBYTES_67"); (68, lit "OP_PUSHBYTES_68"); 
   (69, lit "OP_PUSHBYTES_69"); (70, lit "OP_PUSHBYTES_70"); (71, lit "OP_PUSHBYTES_71"); (72, lit "OP_PUSHBYTES_72"); (73, lit "OP_PUSHBYTES_73"); 
   (74, lit "OP_PUSHBYTES_74"); (75, lit "OP_PUSHBYTES_75"); (76, lit "OP_PUSHDATA1"); (77, lit "OP_PUSHDATA2"); (78, lit "OP_PUSHDATA4"); 
   (80, lit "OP_RESERVED"); (98, lit "OP_VER"); (101, lit "OP_VERIF"); (102, lit "OP_VERNOTIF"); (126, lit "OP_CAT"); 
   (127, lit "OP_SUBSTR"); (128, lit "OP_LEFT"); (129, lit "OP_RIGHT"); (131, lit "OP_INVERT"); (132, lit "OP_AND"); 
   (133, lit "OP_OR"); (134, lit "OP_XOR"); (137, lit "OP_RESERVED1"); (138, lit "OP_RESERVED2"); (141, lit "OP_2MUL"); 
   (142, lit "OP_2DIV"); (149, lit "OP_MUL"); (150, lit "OP_DIV"); (151, lit "OP_MOD"); (152, lit "OP_LSHIFT"); 
   (153, lit "OP_RSHIFT"); (176, lit "OP_NOP1"); (177, lit "OP_CLTV"); (178, lit "OP_CSV"); (179, lit "OP_NOP4"); 
   (180, lit "OP_NOP5"); (181, lit "OP_NOP6"); (182, lit "OP_NOP7"); (183, lit "OP_NOP8"); (184, lit "OP_NOP9"); 
   (185, lit "OP_NOP10"); (187, lit "OP_RETURN_187"); (188, lit "OP_RETURN_188"); (189, lit "OP_RETURN_189"); (190, lit "OP_RETURN_190"); 
   (191, lit "OP_RETURN_191"); (192, lit "OP_RETURN_192"); (193, lit "OP_RETURN_193"); (194, lit "OP_RETURN_194"); (195, lit "OP_RETURN_195"); 
   (196, lit "OP_RETURN_196"); (197, lit "OP_RETURN_197"); (198, lit "OP_RETURN_198"); (199, lit "OP_RETURN_199"); (200, lit "OP_RETURN_200"); 
   (201, lit "OP_RETURN_201"); (202, lit "OP_RETURN_202"); (203, lit "OP_RETURN_203"); (204, lit "OP_RETURN_204"); (205, lit "OP_RETURN_205"); 
   (206, lit "OP_RETURN_206"); (207, lit "OP_RETURN_207"); (208, lit "OP_RETURN_208"); (209, lit "OP_RETURN_209"); (210, lit "OP_RETURN_210"); 
   (211, lit "OP_RETURN_211"); (212, lit "OP_RETURN_212"); (213, lit "OP_RETURN_213"); (214, lit "OP_RETURN_214"); (215, lit "OP_RETURN_215"); 
   (216, lit "OP_RETURN_216"); (217, lit "OP_RETURN_217"); (218, lit "OP_RETURN_218"); (219, lit "OP_RETURN_219"); (220, lit "OP_RETURN_220"); 
   (221, lit "OP_RETURN_221"); (222, lit "OP_RETURN_222"); (223, lit "OP_RETURN_223"); (224, lit "OP_RETURN_224"); (225, lit "OP_RETURN_225"); 
   (226, lit "OP_RETURN_226"); (227, lit "OP_RETURN_227"); (228, lit "OP_RETURN_228"); (229, lit "OP_RETURN_229"); (230, lit "OP_RETURN_230"); 
   (231, lit "OP_RETURN_231"); (232, lit "OP_RETURN_232"); (233, lit "OP_RETURN_233"); (234, lit "OP_RETURN_234"); (235, lit "OP_RETURN_235"); 
   (236, lit "OP_RETURN_236"); (237, lit "OP_RETURN_237"); (238, lit "OP_RETURN_238"); (239, lit "OP_RETURN_239"); (240, lit "OP_RETURN_240"); 
   (241, lit "OP_RETURN_241"); (242, lit "OP_RETURN_242"); (243, lit "OP_RETURN_243"); (244, lit "OP_RETURN_244"); (245, lit "OP_RETURN_245"); 
   (246, lit "OP_RETURN_246"); (247, lit "OP_RETURN_247"); (248, lit "OP_RETURN_248"); (249, lit "OP_RETURN_249"); (250, lit "OP_RETURN_250"); 
   (251, lit "OP_RETURN_251"); (252, lit "OP_RETURN_252"); (253, lit "OP_RETURN_253"); (254, lit "OP_RETURN_254"); (255, lit "OP_INVALIDOPCODE"); 
   (79, lit "OP_1NEGATE"); (81, lit "OP_1"); (82, lit "OP_2"); (83, lit "OP_3"); (84, lit "OP_4"); 
   (85, lit "OP_5"); (86, lit "OP_6"); (87, lit "OP_7"); (88, lit "OP_8"); (89, lit "OP_9"); 
   (90, lit "OP_10"); (91, lit "OP_11"); (92, lit "OP_12"); (93, lit "OP_13"); (94, lit "OP_14"); 
   (95, lit "OP_15"); (96, lit "OP_16"); (97, lit "OP_NOP"); (99, lit "OP_IF"); (100, lit "OP_NOTIF"); 
   (103, lit "OP_ELSE"); (104, lit "OP_ENDIF"); (105, lit "OP_VERIFY"); (106, lit "OP_RETURN"); (107, lit "OP_TOALTSTACK"); 
   (108, lit "OP_FROMALTSTACK"); (109, lit "OP_2DROP"); (110, lit "OP_2DUP"); (111, lit "OP_3DUP"); (112, lit "OP_2OVER"); 
   (113, lit "OP_2ROT"); (114, lit "OP_2SWAP"); (115, lit "OP_IFDUP"); (116, lit "OP_DEPTH"); (117, lit "OP_DROP"); 
   (118, lit "OP_DUP"); (119, lit "OP_NIP"); (120, lit "OP_OVER"); (121, lit "OP_PICK"); (122, lit "OP_ROLL"); 
   (123, lit "OP_ROT"); (124, lit "OP_SWAP"); (125, lit "OP_TUCK"); (130, lit "OP_SIZE"); (135, lit "OP_EQUAL"); 
   (136, lit "OP_EQUALVERIFY"); (139, lit "OP_1ADD"); (140, lit "OP_1SUB"); (143, lit "OP_NEGATE"); (144, lit "OP_ABS"); 
   (145, lit "OP_NOT"); (146, lit "OP_0NOTEQUAL"); (147, lit "OP_ADD"); (148, lit "OP_SUB"); (154, lit "OP_BOOLAND"); 
   (155, lit "OP_BOOLOR"); (156, lit "OP_NUMEQUAL"); (157, lit "OP_NUMEQUALVERIFY"); (158, lit "OP_NUMNOTEQUAL"); (159, lit "OP_LESSTHAN"); 
   (160, lit "OP_GREATERTHAN"); (161, lit "OP_LESSTHANOREQUAL"); (162, lit "OP_GREATERTHANOREQUAL"); (163, lit "OP_MIN"); (164, lit "OP_MAX"); 
   (165, lit "OP_WITHIN"); (166, lit "OP_RIPEMD160"); (167, lit "OP_SHA1"); (168, lit "OP_SHA256"); (169, lit "OP_HASH160"); 
   (170, lit "OP_HASH256"); (171, lit "OP_CODESEPARATOR"); (172, lit "OP_CHECKSIG"); (173, lit "OP_CHECKSIGVERIFY"); (174, lit "OP_CHECKMULTISIG"); 
   (175, lit "OP_CHECKMULTISIGVERIFY"); (186, lit "OP_CHECKSIGADD")].
(** opcode_to_str :41-50, as_str :433; the compiler checks that the match covers all bytes: [Panic] if it did not *)
Definition as_str (op : N) : rust str :=
  match find (fun c => fst c =? op) opcode_consts with Some (_, name) => Ret name | None => Panic end.

(** Display for Script: primitives/src/script/mod.rs:315-380.  The state is the rest of the script, the text so far and
    [at_least_one]; the loop ends when [fuel], more than the bytes left, is used up ([Panic] otherwise). *)
Fixpoint script_fmt (fuel : nat) (data : bytes) (at_least_one : bool) (out : str) : rust str :=
  match fuel with
  | O => Panic
  | S fuel =>
      match data with
      | [] => Ret out
      | byte :: iter =>
          let r := if byte <=? 75 then Some (byte, iter)
                   else if byte =? OP_PUSHDATA1 then read_push_data_len iter 1
                   else if byte =? OP_PUSHDATA2 then read_push_data_len iter 2
                   else if byte =? OP_PUSHDATA4 then read_push_data_len iter 4
                   else Some (0, iter) in
          match r with
          | None => Ret (out ++ lit "<unexpected end>")
          | Some (data_len, iter) =>
              let out := if at_least_one then out ++ lit " " else out in
              let out := out ++ fmt_opcode byte in
              if 0 <? data_len then
                let out := out ++ lit " " in
                if data_len <=? lenN iter then script_fmt fuel (dropN data_len iter) true (out ++ hex_bytes false (takeN data_len iter))
                else Ret (out ++ lit "<push past end>")
              else script_fmt fuel iter true out
          end
      end
  end.
Definition script_display (s : bytes) : rust str := script_fmt (S (List.length s)) s false [].
(** Debug :302-308 *)
Definition script_debug (s : bytes) : rust str := rbind (script_display s) (fun t => Ret (lit "Script(" ++ t ++ lit ")")).
