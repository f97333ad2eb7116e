(** Model of the Merkle root algorithms and of block validation.
    Files: primitives/src/merkle_tree.rs, primitives/src/block.rs. *)
From Verif Require Import Base MDec MWitness MTx.
Local Open Scope N_scope.

Section Merkle.
(** A node, its equality, and [combine] (merkle_tree.rs:165-170, 183-188: the double SHA-256 of the two
    nodes; a leaf is a node, :163, :181). *)
Context {T : Type} (eqb : T -> T -> bool) (combine : T -> T -> T).

(** merkle_tree.rs:75-88: [while n & 1 == 1 { ... n >>= 1 }] on the binary digits of [n].  The stack has
    its top first.  [Ret None]: the function returned None. *)
Definition merge_top (stack : list (N * T)) : rust (option (list (N * T))) :=
  match stack with
  | rt :: lf :: stack' =>
      if eqb (snd lf) (snd rt) then Ret None
      else if fst lf =? fst rt then Ret (Some ((fst lf + 1, combine (snd lf) (snd rt)) :: stack'))
      else Panic (* debug_assert_eq! *)
  | _ => Panic (* pop().unwrap() *)
  end.
Fixpoint carry (n : positive) (stack : list (N * T)) : rust (option (list (N * T))) :=
  match n with
  | xO _ => Ret (Some stack)
  | xH => merge_top stack
  | xI n' => rbind (merge_top stack) (fun o => match o with None => Ret None | Some stack' => carry n' stack' end)
  end.
(** merkle_tree.rs:67-89, from leaf number [n] on *)
Fixpoint push_leaves (n : N) (leaves : list T) (stack : list (N * T)) : rust (option (list (N * T))) :=
  match leaves with
  | [] => Ret (Some stack)
  | leaf :: leaves' =>
      rbind (match n with 0 => Ret (Some ((0, leaf) :: stack)) | Npos p => carry p ((0, leaf) :: stack) end)
            (fun o => match o with None => Ret None | Some stack' => push_leaves (n + 1) leaves' stack' end)
  end.
(** merkle_tree.rs:106-109: doubles [right] up to the level [l]; the loop runs [l - right.0] times *)
Fixpoint lift (times : nat) (rt : N * T) : N * T :=
  match times with
  | O => rt
  | S k => lift k (fst rt + 1, combine (snd rt) (snd rt))
  end.
(** merkle_tree.rs:103-113 *)
Fixpoint collapse (rt : N * T) (stack : list (N * T)) : rust T :=
  match stack with
  | [] => Ret (snd rt)
  | lf :: stack' =>
      if fst lf <? fst rt then Panic (* assert!(right.0 < left.0) *)
      else let rt2 := lift (N.to_nat (fst lf - fst rt)) rt in
           collapse (fst lf + 1, combine (snd lf) (snd rt2)) stack'
  end.
(** merkle_tree.rs:59-115 (with the alloc feature) *)
Definition calculate_root (leaves : list T) : rust (option T) :=
  rbind (push_leaves 0 leaves []) (fun o =>
  match o with
  | None => Ret None
  | Some [] => Ret None
  | Some (top :: stack) => rbind (collapse top stack) (fun h => Ret (Some h))
  end).

(** Without the alloc feature (merkle_tree.rs:64, 68-72): the stack is an ArrayVec of 15 entries and the
    function gives up when it is full. *)
Fixpoint push_leaves_noalloc (n : N) (leaves : list T) (stack : list (N * T)) : rust (option (list (N * T))) :=
  match leaves with
  | [] => Ret (Some stack)
  | leaf :: leaves' =>
      if lenN stack =? 15 then Ret None
      else rbind (match n with 0 => Ret (Some ((0, leaf) :: stack)) | Npos p => carry p ((0, leaf) :: stack) end)
            (fun o => match o with None => Ret None | Some stack' => push_leaves_noalloc (n + 1) leaves' stack' end)
  end.
Definition calculate_root_noalloc (leaves : list T) : rust (option T) :=
  rbind (push_leaves_noalloc 0 leaves []) (fun o =>
  match o with
  | None => Ret None
  | Some [] => Ret None
  | Some (top :: stack) => rbind (collapse top stack) (fun h => Ret (Some h))
  end).

(** merkle_tree.rs:120-156.  sha256d::Hash::hash_64_many on the 64-byte blocks is taken to hash each
    pair, that is to [combine] it. *)
(** :127-131 *)
Fixpoint equal_pair (nodes : list T) : bool :=
  match nodes with
  | a :: b :: nodes' => eqb a b || equal_pair nodes'
  | _ => false
  end.
(** :134-137 *)
Definition pad (nodes : list T) : list T :=
  if Nat.even (length nodes) then nodes
  else match rev nodes with last :: _ => nodes ++ [last] | [] => nodes end.
(** :139-152, chunks_exact(2) *)
Fixpoint hash_pairs (nodes : list T) : list T :=
  match nodes with
  | a :: b :: nodes' => combine a b :: hash_pairs nodes'
  | _ => []
  end.
(** :125-153; [None] of the outer option: out of fuel *)
Fixpoint batched_loop (fuel : nat) (nodes : list T) : option (option T) :=
  match nodes with
  | [] => Some None
  | [x] => Some (Some x)
  | _ =>
      match fuel with
      | O => None
      | S fuel' => if equal_pair nodes then Some None else batched_loop fuel' (hash_pairs (pad nodes))
      end
  end.
Definition calculate_root_batched (nodes : list T) : option (option T) := batched_loop (length nodes) nodes.
End Merkle.

(** ** Block validation: primitives/src/block.rs *)
Section Block.
(** sha256d *)
Context (H : bytes -> bytes).
Definition node_combine (a b : bytes) : bytes := H (a ++ b).
Fixpoint rmap_opt {A B} (f : A -> rust B) (l : list A) : rust (list B) :=
  match l with
  | [] => Ret []
  | x :: l' => rbind (f x) (fun y => rbind (rmap_opt f l') (fun ys => Ret (y :: ys)))
  end.
(** The root on x86 and aarch64 (merkle_tree.rs:173-177, 191-195).  Running out of fuel is excluded by
    C10_batched. *)
Definition root_of (leaves : list bytes) : rust (option bytes) :=
  match calculate_root_batched beqb node_combine leaves with Some r => Ret r | None => Panic end.
(** block.rs:406-413 *)
Definition compute_merkle_root (txs : list transaction) : rust (option bytes) :=
  rbind (rmap_opt (compute_txid H) txs) root_of.
(** block.rs:425-439 *)
Definition compute_witness_root (txs : list transaction) : rust (option bytes) :=
  match txs with
  | [] => root_of []
  | _ :: txs' => rbind (rmap_opt (compute_wtxid H) txs') (fun ids => root_of (repeat 0 32 :: ids))
  end.
(** block.rs:56 *)
Definition WITNESS_COMMITMENT_MAGIC : bytes := [106; 36; 170; 33; 169; 237].
(** block.rs:448-449 *)
Definition is_commitment (o : txout) : bool :=
  (38 <=? lenN (to_script o)) && beqb (takeN 6 (to_script o)) WITNESS_COMMITMENT_MAGIC.
(** block.rs:442-457; rposition is the first from the right *)
Definition witness_commitment_from_coinbase (coinbase : transaction) : option bytes :=
  if negb (is_coinbase coinbase) then None
  else match find is_commitment (rev (tx_outputs coinbase)) with
       | Some o => Some (takeN 32 (dropN 6 (to_script o)))
       | None => None
       end.
(** block.rs:174-187 *)
Definition compute_witness_commitment (txs : list transaction) (reserved : bytes) : rust (option (bytes * bytes)) :=
  rbind (compute_witness_root txs) (fun o =>
  Ret match o with Some root => Some (root, H (root ++ reserved)) | None => None end).
(** block.rs:197-227 *)
Definition all_witness_empty (txs : list transaction) : bool :=
  forallb (fun t => forallb (fun i => wit_is_empty (ti_witness i)) (tx_inputs t)) txs.
Definition check_witness_commitment (txs : list transaction) : rust (bool * option bytes) :=
  match txs with
  | [] => Ret (false, None)
  | coinbase :: _ =>
      let fallthrough := Ret (if all_witness_empty txs then (true, None) else (false, None)) in
      if is_coinbase coinbase then
        match witness_commitment_from_coinbase coinbase with
        | Some commitment =>
            match tx_inputs coinbase with
            | [] => Panic (* inputs[0] *)
            | i :: _ =>
                rbind (wit_to_vec (ti_witness i)) (fun witness_vec =>
                match witness_vec with
                | [reserved] =>
                    if lenN reserved =? 32 then
                      rbind (compute_witness_commitment txs reserved) (fun o =>
                      Ret match o with
                          | Some (root, wc) => if beqb commitment wc then (true, Some root) else (false, None)
                          | None => (false, None)
                          end)
                    else Ret (false, None)
                | _ => Ret (false, None)
                end)
            end
        | None => fallthrough
        end
      else fallthrough
  end.
(** block.rs:166-171 *)
Definition check_merkle_root (b : block) : rust bool :=
  rbind (compute_merkle_root (b_txs b)) (fun o =>
  Ret match o with Some root => beqb (h_merkle (b_header b)) root | None => false end).
Inductive invalid_block := NoTransactions | InvalidCoinbase | InvalidMerkleRoot | InvalidWitnessCommitment.
(** block.rs:143-163; a checked block is the block and its cached witness root *)
Definition validate (b : block) : rust (result (block * option bytes) invalid_block) :=
  match b_txs b with
  | [] => Ret (Err NoTransactions)
  | coinbase :: _ =>
      if negb (is_coinbase coinbase) then Ret (Err InvalidCoinbase)
      else rbind (check_merkle_root b) (fun ok =>
        if negb ok then Ret (Err InvalidMerkleRoot)
        else rbind (check_witness_commitment (b_txs b)) (fun '(ok, root) =>
             Ret (if ok : bool then Ok (b, root) else Err InvalidWitnessCommitment)))
  end.
End Block.
