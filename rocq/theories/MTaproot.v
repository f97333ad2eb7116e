(** Model of bitcoin/src/taproot/mod.rs, bitcoin/src/taproot/merkle_branch/ and taproot_primitives/src/lib.rs: script trees,
    their builder, spend info and control blocks.  SHA-256 is the parameter [H].  Keys and point arithmetic (libsecp256k1) are
    the parameter [C]; key pairs and signing are not modelled.  Writers are vectors, which never fail.  A hash is a byte list. *)
From Coq Require Import String.
From Verif Require Import Base MDec MWitness MTx MScript MText MSighash.
Local Open Scope N_scope.

(** taproot_primitives/src/lib.rs :49-67 *)
Definition MAX_NODE_COUNT : N := 128.
Definition NODE_SIZE : N := 32.
Definition LEAF_MASK : N := 0xfe.
Definition LEAF_TAPSCRIPT : N := 0xc0.
Definition ANNEX_PREFIX : N := 0x50.
Definition CONTROL_BASE_SIZE : N := 33.

(** LeafVersion :201-207 *)
Inductive leaf_version := TapScript | Future (v : N).
(** FutureLeafVersion::from_consensus :319-328; the error carries the byte *)
Definition future_from_consensus (v : N) : rust (result N N) :=
  if v =? LEAF_TAPSCRIPT then Panic
  else if v =? ANNEX_PREFIX then Ret (Err ANNEX_PREFIX)
  else if negb (N.land v 0xFE =? v) then Ret (Err v) else Ret (Ok v).
(** LeafVersion::from_consensus :216-222 *)
Definition lv_from_consensus (v : N) : rust (result leaf_version N) :=
  if v =? LEAF_TAPSCRIPT then Ret (Ok TapScript)
  else if v =? ANNEX_PREFIX then Ret (Err ANNEX_PREFIX)
  else match future_from_consensus v with Panic => Panic | Ret (Ok f) => Ret (Ok (Future f)) | Ret (Err e) => Ret (Err e) end.
(** to_consensus :225-230, :332 *)
Definition lv_to_consensus (v : leaf_version) : N := match v with TapScript => LEAF_TAPSCRIPT | Future f => f end.

(** Ord of slices, arrays and vectors (core::slice): lexicographic *)
Fixpoint lex_cmp {A} (cmp : A -> A -> comparison) (a b : list A) : comparison :=
  match a, b with [], [] => Eq | [], _ => Lt | _, [] => Gt | x :: a', y :: b' => match cmp x y with Eq => lex_cmp cmp a' b' | r => r end end.
Definition hash_cmp : bytes -> bytes -> comparison := lex_cmp N.compare.
Definition hash_ltb (a b : bytes) : bool := match hash_cmp a b with Lt => true | _ => false end.
(** derived Ord: the fields one after the other *)
Definition then_cmp (c d : comparison) : comparison := match c with Eq => d | _ => c end.

(** * The tree *)
(** TapLeaf :861-866 and LeafNode :890-895; the branch starts with the sibling of the leaf *)
Inductive tap_leaf := LScript (script : bytes) (ver : leaf_version) | LHidden (hash : bytes).
Record leaf_node := mk_leaf { ln_leaf : tap_leaf; ln_branch : list bytes }.
(** NodeInfo :699-706 *)
Record node_info := mk_node { ni_hash : bytes; ni_leaves : list leaf_node; ni_hidden : bool }.
(** TaprootBuilderError :1241-1250 *)
Inductive builder_err := EDepth (n : N) | ENotDfs | EOverComplete | EEmpty.

(** TaprootMerkleBranchBuf::push: merkle_branch/buf.rs :91-101 *)
Definition branch_push (b : list bytes) (h : bytes) : result (list bytes) N :=
  if MAX_NODE_COUNT <=? lenN b then Err (lenN b) else Ok (b ++ [h]).

(** Ord: LeafVersion (derived), TapLeaf :859, LeafNode :889, NodeInfo :710-720 *)
Definition lv_cmp (a b : leaf_version) : comparison :=
  match a, b with TapScript, TapScript => Eq | TapScript, Future _ => Lt | Future _, TapScript => Gt | Future x, Future y => N.compare x y end.
Definition leaf_cmp (a b : tap_leaf) : comparison :=
  match a, b with
  | LScript s v, LScript s' v' => then_cmp (lex_cmp N.compare s s') (lv_cmp v v')
  | LScript _ _, LHidden _ => Lt | LHidden _, LScript _ _ => Gt
  | LHidden h, LHidden h' => hash_cmp h h'
  end.
Definition branch_cmp : list bytes -> list bytes -> comparison := lex_cmp hash_cmp.
Definition leaf_node_cmp (a b : leaf_node) : comparison := then_cmp (leaf_cmp (ln_leaf a) (ln_leaf b)) (branch_cmp (ln_branch a) (ln_branch b)).
Definition bool_cmp (a b : bool) : comparison := match a, b with true, false => Gt | false, true => Lt | _, _ => Eq end.
Definition node_cmp (a b : node_info) : comparison :=
  match hash_cmp (ni_hash a) (ni_hash b) with
  | Eq => match lex_cmp leaf_node_cmp (ni_leaves a) (ni_leaves b) with Eq => bool_cmp (ni_hidden a) (ni_hidden b) | o => o end
  | o => o
  end.

(** BinaryHeap of [(Reverse<u32>, NodeInfo)]: modelled by a list whose greatest element is taken out; elements that compare
    equal are equal, so which of them is taken makes no difference.  [x] is the greatest so far. *)
Definition entry := (N * node_info)%type.
Definition entry_cmp (a b : entry) : comparison := then_cmp (N.compare (fst b) (fst a)) (node_cmp (snd a) (snd b)).
Fixpoint take_max (x : entry) (l : list entry) : entry * list entry :=
  match l with
  | [] => (x, [])
  | y :: l' => match entry_cmp y x with Gt => let '(m, r) := take_max y l' in (m, x :: r) | _ => let '(m, r) := take_max x l' in (m, y :: r) end
  end.
Definition heap_pop (l : list entry) : option (entry * list entry) := match l with [] => None | x :: l' => Some (take_max x l') end.

Section Hash.
  Variable H : bytes -> bytes.
  (** the tags: taproot_primitives/src/lib.rs :74-76, :128-130, :150-152; sha256t engines start from the midstate of the tag (C27) *)
  Definition TAP_BRANCH : bytes := lit "TapBranch".
  Definition TAP_TWEAK : bytes := lit "TapTweak".
  (** TapLeafHash::from_script :69-75, TapNodeHash::from_script :95-97; the sighash code has the same function *)
  Definition from_script (script : bytes) (ver : leaf_version) : bytes := leaf_hash H (lv_to_consensus ver) script.
  (** combine_node_hashes :109-120 and from_node_hashes :83-85 *)
  Definition combine_hashes (a b : bytes) : bytes * bool :=
    (tag_hash H TAP_BRANCH (if hash_ltb a b then a ++ b else b ++ a), hash_ltb a b).
  Definition from_node_hashes (a b : bytes) : bytes := fst (combine_hashes a b).
  (** LeafNode: new_script :899-901, node_hash :932-937, depth :910-913 (expect) *)
  Definition new_script (script : bytes) (ver : leaf_version) : leaf_node := mk_leaf (LScript script ver) [].
  Definition ln_hash (l : leaf_node) : bytes := match ln_leaf l with LScript s v => from_script s v | LHidden h => h end.
  Definition ln_depth (l : leaf_node) : rust N := if lenN (ln_branch l) <? 256 then Ret (lenN (ln_branch l)) else Panic.
  (** NodeInfo: new_hidden_node :738-740, new_leaf_with_ver :743-749 *)
  Definition new_hidden_node (h : bytes) : node_info := mk_node h [] true.
  Definition new_leaf (script : bytes) (ver : leaf_version) : node_info := mk_node (from_script script ver) [new_script script ver] false.
  (** NodeInfo::combine :752-769 *)
  Fixpoint push_all (ls : list leaf_node) (h : bytes) : result (list leaf_node) N :=
    match ls with
    | [] => Ok []
    | l :: ls' =>
        match branch_push (ln_branch l) h with
        | Err e => Err e
        | Ok b => match push_all ls' h with Err e => Err e | Ok r => Ok (mk_leaf (ln_leaf l) b :: r) end
        end
    end.
  Definition combine (a b : node_info) : result node_info builder_err :=
    let '(hash, left_first) := combine_hashes (ni_hash a) (ni_hash b) in
    let '(a, b) := if left_first then (a, b) else (b, a) in
    match push_all (ni_leaves a) (ni_hash b) with
    | Err e => Err (EDepth e)
    | Ok la => match push_all (ni_leaves b) (ni_hash a) with
               | Err e => Err (EDepth e)
               | Ok lb => Ok (mk_node hash (la ++ lb) (ni_hidden a || ni_hidden b))
               end
    end.

  (** * The builder: the vector [branch] :337 *)
  Definition builder := list (option node_info).
  (** Vec::pop *)
  Definition vec_pop {A} (l : list A) : option (list A * A) := match rev l with [] => None | x :: r => Some (rev r, x) end.
  (** the loop of insert :535-554, with the rest :556-563; the depth decreases, which gives the fuel *)
  Fixpoint insert_loop (fuel : nat) (b : builder) (node : node_info) (depth : N) : rust (result builder builder_err) :=
    let finish b :=
      (* :556-562; the assignment panics out of bounds *)
      let b := if lenN b <? depth + 1 then b ++ repeat None (N.to_nat (depth + 1 - lenN b)) else b in
      if depth <? lenN b then Ret (Ok (takeN depth b ++ Some node :: dropN (depth + 1) b)) else Panic in
    match fuel with
    | O => Panic
    | S fuel' =>
        if lenN b =? depth + 1 then
          match vec_pop b with
          | None => Panic
          | Some (b', Some child) =>
              if depth =? 0 then Ret (Err EOverComplete)
              else match combine node child with Err e => Ret (Err e) | Ok node => insert_loop fuel' b' node (depth - 1) end
          | Some (b', None) => finish (b' ++ [None])
          end
        else finish b
    end.
  (** insert :522-564; depth is a u8 *)
  Definition insert (b : builder) (node : node_info) (depth : N) : rust (result builder builder_err) :=
    if MAX_NODE_COUNT <? depth then Ret (Err (EDepth depth))
    else if depth + 1 <? lenN b then Ret (Err ENotDfs)
    else insert_loop (N.to_nat depth + 1) b node depth.
  (** add_leaf_with_ver :407-415, add_leaf :426-428, add_hidden_node :437-444 *)
  Definition add_leaf_with_ver (b : builder) (depth : N) (script : bytes) (ver : leaf_version) := insert b (new_leaf script ver) depth.
  Definition add_leaf (b : builder) (depth : N) (script : bytes) := add_leaf_with_ver b depth script TapScript.
  Definition add_hidden_node (b : builder) (depth : N) (h : bytes) := insert b (new_hidden_node h) depth.
  (** is_finalizable :447, has_hidden_nodes :494-496 *)
  Definition is_finalizable (b : builder) : bool := match b with [Some _] => true | _ => false end.
  Definition has_hidden_nodes (b : builder) : bool := existsb (fun o => match o with Some n => ni_hidden n | None => false end) b.
  (** IncompleteBuilderError :1156-1161 *)
  Inductive incomplete_err := ENotFinalized (b : builder) | EHiddenParts (b : builder).
  (** try_into_node_info :456-465, try_into_tap_tree :484-491; a TapTree is a NodeInfo *)
  Definition try_into_node_info (b : builder) : rust (result node_info incomplete_err) :=
    match b with
    | [Some n] => Ret (Ok n)
    | [None] => Panic
    | _ => Ret (Err (ENotFinalized b))
    end.
  Definition try_into_tap_tree (b : builder) : rust (result node_info incomplete_err) :=
    match try_into_node_info b with
    | Panic => Panic
    | Ret (Err e) => Ret (Err e)
    | Ret (Ok n) => if ni_hidden n then Ret (Err (EHiddenParts [Some n])) else Ret (Ok n)
    end.
  (** TryFrom<NodeInfo> for TapTree :629-635, script_leaves :598-600 with the iterator :650 (it stops at a hidden leaf) *)
  Definition tap_tree_of (n : node_info) : result node_info node_info := if ni_hidden n then Err n else Ok n.
  Fixpoint script_leaves (ls : list leaf_node) : list (leaf_version * bytes * list bytes) :=
    match ls with
    | [] => []
    | l :: ls' => match ln_leaf l with LScript s v => (v, s, ln_branch l) :: script_leaves ls' | LHidden _ => [] end
    end.
  (** serde of NodeInfo :787-856: the sequence of pairs; an element that cannot be read (a depth over 255) is an error of the
      format, here [SFormat]; the capacity hint has no effect *)
  Inductive serde_err := SFormat | SInsert (e : builder_err) | SIncomplete (e : incomplete_err).
  Definition node_serialize (n : node_info) : list (N * tap_leaf) := map (fun l => (lenN (ln_branch l), ln_leaf l)) (ni_leaves n).
  Fixpoint visit (b : builder) (items : list (N * tap_leaf)) : rust (result node_info serde_err) :=
    match items with
    | [] => match try_into_node_info b with Panic => Panic | Ret (Ok n) => Ret (Ok n) | Ret (Err e) => Ret (Err (SIncomplete e)) end
    | (d, l) :: items' =>
        if 256 <=? d then Ret (Err SFormat)
        else match (match l with LScript s v => add_leaf_with_ver b d s v | LHidden h => add_hidden_node b d h end) with
             | Panic => Panic
             | Ret (Err e) => Ret (Err (SInsert e))
             | Ret (Ok b) => visit b items'
             end
    end.
  Definition node_deserialize (items : list (N * tap_leaf)) : rust (result node_info serde_err) := visit [] items.

  (** * with_huffman_tree :370-398 *)
  Definition saturating_add32 (a b : N) : N := N.min (a + b) (2 ^ 32 - 1).
  Fixpoint huffman_loop (fuel : nat) (heap : list entry) : rust (result builder builder_err) :=
    match fuel with
    | O => Panic
    | S fuel' =>
        if 1 <? lenN heap then
          match heap_pop heap with
          | None => Panic
          | Some ((p1, s1), heap) =>
              match heap_pop heap with
              | None => Panic
              | Some ((p2, s2), heap) =>
                  match combine s1 s2 with
                  | Err e => Ret (Err e)
                  | Ok n => huffman_loop fuel' ((saturating_add32 p1 p2, n) :: heap)
                  end
              end
          end
        else
          (* :395-397: the debug assertion *)
          if lenN heap =? 1 then match heap_pop heap with Some ((_, node), _) => Ret (Ok [Some node]) | None => Panic end else Panic
    end.
  Definition with_huffman_tree (l : list (N * bytes)) : rust (result builder builder_err) :=
    let heap := map (fun '(p, s) => (p, new_leaf s TapScript)) l in
    match heap with [] => Ret (Err EEmpty) | _ => huffman_loop (length heap) heap end.

  (** * Keys *)
  (** what libsecp256k1 offers on x-only keys: 32 byte serialization and parsing, adding a tweak (with the parity of the
      result) and checking such a sum *)
  Record curve := mk_curve {
    c_key : Type;
    c_ser : c_key -> bytes;
    c_parse : bytes -> option c_key;
    c_add : c_key -> N -> option (c_key * bool);
    c_check : c_key -> c_key -> bool -> N -> bool }.
  Variable C : curve.
  (** XOnlyPublicKey: crypto/src/key.rs :65-68, with [true] for odd; from_byte_array :395-401 *)
  Record xonly := mk_xonly { xo_key : c_key C; xo_odd : bool }.
  Definition xonly_parse (b : bytes) : option xonly := match c_parse C b with Some k => Some (mk_xonly k false) | None => None end.
  Definition xonly_ser (k : xonly) : bytes := c_ser C (xo_key k).
  (** add_tweak :442-450, tweak_add_check :426-428 *)
  Definition add_tweak (k : xonly) (t : N) : option xonly := match c_add C (xo_key k) t with Some (k', o) => Some (mk_xonly k' o) | None => None end.
  Definition tweak_add_check (k out : xonly) (t : N) : bool := c_check C (xo_key k) (xo_key out) (xo_odd out) t.
  Definition CURVE_ORDER : N := 0xFFFFFFFFFFFFFFFFFFFFFFFFFFFFFFFEBAAEDCE6AF48A03BBFD25E8CD0364141.
  (** TapTweakHash: to_scalar :174-177 (expect), from_key_and_merkle_root :181-196 *)
  Definition to_scalar (h : bytes) : rust N := if be_val h <? CURVE_ORDER then Ret (be_val h) else Panic.
  Definition tweak_hash (k : xonly) (root : option bytes) : bytes :=
    tag_hash H TAP_TWEAK (xonly_ser k ++ match root with Some h => h | None => [] end).
  (** tap_tweak :403-409 *)
  Definition tap_tweak (k : xonly) (root : option bytes) : rust xonly :=
    rbind (to_scalar (tweak_hash k root)) (fun t =>
    match add_tweak k t with None => Panic | Some out => if tweak_add_check k out t then Ret out else Panic end).

  (** * Spend info *)
  (** ScriptMerkleProofMap :132; maps and sets are lists sorted by their Ord *)
  Definition script_key := (bytes * leaf_version)%type.
  Definition key_cmp (a b : script_key) : comparison := then_cmp (lex_cmp N.compare (fst a) (fst b)) (lv_cmp (snd a) (snd b)).
  Fixpoint set_insert (b : list bytes) (s : list (list bytes)) : list (list bytes) :=
    match s with
    | [] => [b]
    | x :: s' => match branch_cmp b x with Lt => b :: s | Eq => s | Gt => x :: set_insert b s' end
    end.
  Definition script_map := list (script_key * list (list bytes)).
  Fixpoint map_get (m : script_map) (k : script_key) : option (list (list bytes)) :=
    match m with [] => None | (k', s) :: m' => match key_cmp k k' with Eq => Some s | _ => map_get m' k end end.
  (** get_mut then insert :252-261 *)
  Fixpoint map_add (m : script_map) (k : script_key) (b : list bytes) : script_map :=
    match m with
    | [] => [(k, [b])]
    | (k', s) :: m' => match key_cmp k k' with Lt => (k, [b]) :: m | Eq => (k', set_insert b s) :: m' | Gt => (k', s) :: map_add m' k b end
    end.
  (** TaprootSpendInfo :155-169, new_key_spend :199-212, from_node_info :239-266 *)
  Record spend_info := mk_spend { si_internal : xonly; si_root : option bytes; si_odd : bool; si_output : xonly; si_map : script_map }.
  Definition new_key_spend (k : xonly) (root : option bytes) : rust spend_info :=
    rbind (tap_tweak k root) (fun out => Ret (mk_spend k root (xo_odd out) out [])).
  Definition add_leaves (m : script_map) (ls : list leaf_node) : script_map :=
    fold_left (fun m l => match ln_leaf l with LHidden _ => m | LScript s v => map_add m (s, v) (ln_branch l) end) ls m.
  Definition from_node_info (k : xonly) (n : node_info) : rust spend_info :=
    rbind (new_key_spend k (Some (ni_hash n))) (fun i =>
    Ret (mk_spend (si_internal i) (si_root i) (si_odd i) (si_output i) (add_leaves (si_map i) (ni_leaves n)))).
  (** tap_tweak :216-218 *)
  Definition si_tweak (i : spend_info) : bytes := tweak_hash (si_internal i) (si_root i).
  (** finalize :502-517; TaprootSpendInfo::with_huffman_tree :176-186 *)
  Definition finalize (b : builder) (k : xonly) : rust (result spend_info builder) :=
    match b with
    | [] => rbind (new_key_spend k None) (fun i => Ret (Ok i))
    | [Some n] => rbind (from_node_info k n) (fun i => Ret (Ok i))
    | [None] => Panic
    | _ => Ret (Err b)
    end.
  Definition spend_with_huffman_tree (k : xonly) (l : list (N * bytes)) : rust (result spend_info builder_err) :=
    rbind (with_huffman_tree l) (fun r =>
    match r with Err e => Ret (Err e) | Ok b => rbind (finalize b k) (fun r => match r with Ok i => Ret (Ok i) | Err _ => Panic end) end).

  (** * Control blocks *)
  (** ControlBlock :989-1001 *)
  Record control_block := mk_cb { cb_version : leaf_version; cb_odd : bool; cb_key : xonly; cb_branch : list bytes }.
  (** TaprootSpendInfo::control_block :274-287: min_by keeps the first of the shortest *)
  Fixpoint min_by_len (x : list bytes) (s : list (list bytes)) : list bytes :=
    match s with [] => x | y :: s' => if lenN y <? lenN x then min_by_len y s' else min_by_len x s' end.
  Definition control_block_of (i : spend_info) (k : script_key) : rust (option control_block) :=
    match map_get (si_map i) k with
    | None => Ret None
    | Some [] => Panic
    | Some (x :: s) => Ret (Some (mk_cb (snd k) (si_odd i) (si_internal i) (min_by_len x s)))
    end.
  (** TaprootError :1294-1307 *)
  Inductive taproot_err := EBranchSize (n : N) | ETreeDepth (n : N) | ELeafVersion (v : N) | EControlSize (n : N) | EInternalKey.
  (** TaprootMerkleBranch::decode: merkle_branch/borrowed.rs :85-113, with the errors of mod.rs :31-39 and :68-76 and the
      chunks of internals/src/slice.rs *)
  Fixpoint chunk32 (fuel : nat) (b : bytes) : list bytes := match fuel with O => [] | S f => takeN NODE_SIZE b :: chunk32 f (dropN NODE_SIZE b) end.
  Definition decode_err (num_bytes : N) : taproot_err := if num_bytes mod NODE_SIZE =? 0 then ETreeDepth (num_bytes / NODE_SIZE) else EBranchSize num_bytes.
  Definition branch_decode (b : bytes) : result (list bytes) taproot_err :=
    let nodes := chunk32 (N.to_nat (lenN b / NODE_SIZE)) b in
    if lenN b mod NODE_SIZE =? 0 then
      if lenN nodes <=? MAX_NODE_COUNT then Ok nodes else Err (decode_err (lenN nodes * NODE_SIZE))
    else Err (decode_err (lenN b)).
  (** as_bytes, encode :60-79 and TaprootMerkleBranchBuf::{encode, serialize} buf.rs :78-88; from_collection buf.rs :63-71 *)
  Definition branch_bytes (b : list bytes) : bytes := concat b.
  Definition branch_from_collection (l : list bytes) : result (list bytes) N := if MAX_NODE_COUNT <? lenN l then Err (lenN l) else Ok l.
  (** decode_borrowed :1036-1056 and decode :1016-1026 *)
  Definition cb_decode (sl : bytes) : rust (result control_block taproot_err) :=
    match takeN CONTROL_BASE_SIZE sl, lenN sl <? CONTROL_BASE_SIZE with
    | first :: key, false =>
        let odd := negb (N.land first 1 =? 0) in
        match lv_from_consensus (N.land first LEAF_MASK) with
        | Panic => Panic
        | Ret (Err v) => Ret (Err (ELeafVersion v))
        | Ret (Ok version) =>
            match branch_decode (dropN CONTROL_BASE_SIZE sl) with
            | Err e => Ret (Err e)
            | Ok branch => match xonly_parse key with None => Ret (Err EInternalKey) | Some k => Ret (Ok (mk_cb version odd k branch)) end
            end
        end
    | _, _ => Ret (Err (EControlSize (lenN sl)))
    end.
  (** size :1062-1064, encode_inner :1086-1093, serialize :1101-1105 *)
  Definition cb_size (c : control_block) : N := CONTROL_BASE_SIZE + NODE_SIZE * lenN (cb_branch c).
  Definition cb_serialize (c : control_block) : bytes :=
    N.lor (if cb_odd c then 1 else 0) (lv_to_consensus (cb_version c)) :: xonly_ser (cb_key c) ++ branch_bytes (cb_branch c).
  (** verify_taproot_commitment :1111-1128 *)
  Definition verify_commitment (c : control_block) (output : xonly) (script : bytes) : rust bool :=
    let curr := fold_left from_node_hashes (cb_branch c) (from_script script (cb_version c)) in
    rbind (to_scalar (tweak_hash (cb_key c) (Some curr))) (fun t =>
    Ret (tweak_add_check (cb_key c) (mk_xonly (xo_key output) (cb_odd c)) t)).
End Hash.
Arguments mk_xonly {C}. Arguments xo_key {C}. Arguments xo_odd {C}.
Arguments mk_cb {C}. Arguments cb_version {C}. Arguments cb_odd {C}. Arguments cb_key {C}. Arguments cb_branch {C}.
Arguments mk_spend {C}. Arguments si_internal {C}. Arguments si_root {C}. Arguments si_odd {C}. Arguments si_output {C}. Arguments si_map {C}.
Arguments xonly_ser {C}. Arguments xonly_parse {C}. Arguments add_tweak {C}. Arguments tweak_add_check {C}.
