(** Model of primitives/src/witness.rs: the [Witness] type, its accessors, encoder and decoder.
    Debug assertions and overflow checks are on (they appear as [Panic]).  [u32::to_ne_bytes] is
    taken to be little endian. *)
From Verif Require Import Base MDec.
Local Open Scope N_scope.

Definition U32_MAX : N := 4294967295.
Definition USIZE : N := 18446744073709551616. (* 2^64 *)

(** witness.rs:38, 45 *)
Definition MAX_WITNESS_STACK_ITEMS : N := 4000000.
Definition MAX_WITNESS_ITEM_SIZE : N := 4000000.

(** witness.rs:57-82 struct Witness (with derived PartialEq: all three fields). *)
Record witness := { wt_content : bytes; wt_elements : N; wt_start : N }.

(** [b[p .. p + d.len()].copy_from_slice(d)] *)
Definition splice (b : bytes) (p : N) (d : bytes) : rust bytes :=
  if p + lenN d <=? lenN b then Ret (takeN p b ++ d ++ dropN (p + lenN d) b) else Panic.

(** witness.rs:261-266 *)
Definition encode_cursor (b : bytes) (start_of_indices index value : N) : rust bytes :=
  if value <=? U32_MAX then splice b (start_of_indices + index * 4) (le_bytes 4 value) else Panic.

(** witness.rs:269-273 with internals/src/slice.rs:98-104; usize overflow panics. *)
Definition decode_cursor (b : bytes) (start_of_indices index : N) : rust (option N) :=
  let start := start_of_indices + index * 4 in
  if USIZE <=? start + 4 then Panic
  else if start + 4 <=? lenN b then Ret (Some (le_val (takeN 4 (dropN start b)))) else Ret None.

(** witness.rs:846-891 *)
Definition decode_unchecked (sl : bytes) : rust (N * bytes) :=
  match sl with
  | [] => Panic
  | b :: rest =>
      if b =? 255 then
        if lenN sl <? 9 then Panic
        else let v := le_val (takeN 8 rest) in
             if v <=? 4294967295 then Panic else Ret (v, dropN 8 rest)
      else if b =? 254 then
        if lenN sl <? 5 then Panic
        else let v := le_val (takeN 4 rest) in
             if v <=? 65535 then Panic else Ret (v, dropN 4 rest)
      else if b =? 253 then
        if lenN sl <? 3 then Panic
        else let v := le_val (takeN 2 rest) in
             if v <? 253 then Panic else Ret (v, dropN 2 rest)
      else Ret (b, rest)
  end.

(** witness.rs:824-833 *)
Definition cast_to_usize_if_valid (n : N) : option N := if 4000000 <? n then None else Some n.

(** witness.rs:87 new, 801 default *)
Definition wit_new : witness := {| wt_content := []; wt_elements := 0; wt_start := 0 |}.

(** witness.rs:95-98 *)
Definition content_size (ls : list bytes) : N :=
  fold_right (fun e acc => lenN e + cs_encoded_size (lenN e) + acc) 0 ls.

(** witness.rs:102-110, the loop *)
Fixpoint from_slice_loop (content : bytes) (csize i cursor : N) (ls : list bytes) : rust bytes :=
  match ls with
  | [] => Ret content
  | e :: ls' =>
      rbind (encode_cursor content csize i cursor) (fun c1 =>
      let enc := cs_encode (lenN e) in
      rbind (splice c1 cursor enc) (fun c2 =>
      let cursor1 := cursor + lenN enc in
      rbind (splice c2 cursor1 e) (fun c3 =>
      from_slice_loop c3 csize (i + 1) (cursor1 + lenN e) ls')))
  end.

(** witness.rs:92-113 *)
Definition from_slice (ls : list bytes) : rust witness :=
  let csize := content_size ls in
  let content := repeat 0 (N.to_nat (csize + lenN ls * 4)) in
  rbind (from_slice_loop content csize 0 0 ls) (fun c =>
  Ret {| wt_content := c; wt_elements := lenN ls; wt_start := csize |}).

(** witness.rs:121, 132, 156 *)
Definition wit_is_empty (w : witness) : bool := wt_elements w =? 0.
Definition wit_len (w : witness) : N := wt_elements w.
Definition wit_clear (w : witness) : witness := {| wt_content := []; wt_elements := 0; wt_start := 0 |}.

(** [slice.rotate_right(k)] *)
Definition rotate_right {A} (k : N) (l : list A) : list A :=
  dropN (lenN l - k) l ++ takeN (lenN l - k) l.

(** witness.rs:169-191 *)
Definition push_slice (w : witness) (e : bytes) : rust witness :=
  let n := wt_elements w + 1 in
  let prev := wt_start w in
  let enc := cs_encode (lenN e) in
  let total := lenN enc + lenN e in
  let c1 := wt_content w ++ repeat 0 (N.to_nat (total + 4)) in
  let c2 := takeN prev c1 ++ rotate_right total (dropN prev c1) in
  let start := prev + total in
  rbind (encode_cursor c2 start (n - 1) prev) (fun c3 =>
  let end_cs := prev + lenN enc in
  rbind (splice c3 prev enc) (fun c4 =>
  rbind (splice c4 end_cs e) (fun c5 =>
  Ret {| wt_content := c5; wt_elements := n; wt_start := start |}))).

(** witness.rs:229-236 *)
Definition wit_get (w : witness) (index : N) : rust (option bytes) :=
  rbind (decode_cursor (wt_content w) (wt_start w) index) (fun o =>
  match o with
  | None => Ret None
  | Some pos =>
      if lenN (wt_content w) <? pos then Panic
      else rbind (decode_unchecked (dropN pos (wt_content w))) (fun '(element_len, slice) =>
           match cast_to_usize_if_valid element_len with
           | None => Ret None
           | Some e => if lenN slice <? e then Panic else Ret (Some (takeN e slice))
           end)
  end).

(** witness.rs:219-225, 195 *)
Definition wit_get_back (w : witness) (index : N) : rust (option bytes) :=
  if wt_elements w <=? index then Ret None else wit_get w (wt_elements w - 1 - index).
Definition wit_last (w : witness) : rust (option bytes) := wit_get_back w 0.

(** witness.rs:632-642 Iter::next reads exactly as [get]; collecting the iterator.  It yields at
    most one item per stored index, which bounds the recursion. *)
Fixpoint iter_loop (fuel : nat) (w : witness) (i : N) : rust (list bytes) :=
  match fuel with
  | O => Ret []
  | S fuel' =>
      rbind (wit_get w i) (fun o =>
      match o with
      | None => Ret []
      | Some e => rbind (iter_loop fuel' w (i + 1)) (fun es => Ret (e :: es))
      end)
  end.
(** witness.rs:126, 117: iter().collect() *)
Definition wit_to_vec (w : witness) : rust (list bytes) :=
  iter_loop (S (length (wt_content w))) w 0.

(** witness.rs:139-152 *)
Definition wit_size (w : witness) : rust N :=
  rbind (wit_to_vec w) (fun es =>
  Ret (cs_encoded_size (wt_elements w) + content_size es)).

(** witness.rs:498-505 PartialEq<[T]>: [zip] stops at the shorter. *)
Fixpoint beqb (a b : bytes) : bool :=
  match a, b with
  | [], [] => true
  | x :: a', y :: b' => (x =? y) && beqb a' b'
  | _, _ => false
  end.
Fixpoint zip_all (a b : list bytes) : bool :=
  match a, b with
  | x :: a', y :: b' => beqb x y && zip_all a' b'
  | _, _ => true
  end.
Definition wit_eq_slice (w : witness) (rhs : list bytes) : rust bool :=
  if negb (wt_elements w =? lenN rhs) then Ret false
  else rbind (wit_to_vec w) (fun es => Ret (zip_all es rhs)).

(** witness.rs:281-287: what the encoder emits (see MEnc.v for the encoder machine) *)
Definition wit_encode (w : witness) : bytes :=
  cs_encode (wt_elements w) ++ takeN (wt_start w) (wt_content w).

(** ** WitnessDecoder: witness.rs:302-494 *)
Record wd_state := {
  wd_content : bytes;
  wd_count : bytes;          (* witness_count_decoder *)
  wd_elements : option N;
  wd_idx : N;
  wd_len : bytes;            (* element_length_decoder *)
  wd_remaining : option N }.

Inductive wd_err := WdPrefix (e : cs_err) | WdEof (missing : N).

(** witness.rs:380-440; every round consumes a byte, so the input length bounds the rounds. *)
Fixpoint wd_loop (fuel : nat) (n : N) (s : wd_state) (l : bytes) : wd_state * bytes * pstatus wd_err :=
  if n <=? wd_idx s then (s, l, Ready)
  else match l with
  | [] => (s, l, NeedsMore)
  | _ :: _ =>
      match fuel with
      | O => (s, l, PPanic)
      | S fuel' =>
          match wd_remaining s with
          | Some to_read =>
              let can_copy := N.min (lenN l) to_read in
              let remaining := to_read - can_copy in
              let s' := {| wd_content := wd_content s ++ takeN can_copy l;
                           wd_count := wd_count s; wd_elements := wd_elements s;
                           wd_idx := if remaining =? 0 then wd_idx s + 1 else wd_idx s;
                           wd_len := wd_len s;
                           wd_remaining := if remaining =? 0 then None else Some remaining |} in
              wd_loop fuel' n s' (dropN can_copy l)
          | None =>
              let put b := {| wd_content := wd_content s; wd_count := wd_count s;
                              wd_elements := wd_elements s; wd_idx := wd_idx s; wd_len := b;
                              wd_remaining := None |} in
              match cs_push (wd_len s) l with
              | (b, l', NeedsMore) => (put b, l', NeedsMore)
              | (b, l', PErr e) => (put b, l', PErr (WdPrefix e))
              | (b, l', PPanic) => (put b, l', PPanic)
              | (b, l', Ready) =>
                  match cs_fin MAX_WITNESS_ITEM_SIZE b with
                  | Err e => (put [], l', PErr (WdPrefix e))
                  | Ok len =>
                      let s' := {| wd_content := wd_content s ++ cs_encode len;
                                   wd_count := wd_count s; wd_elements := wd_elements s;
                                   wd_idx := if len =? 0 then wd_idx s + 1 else wd_idx s;
                                   wd_len := [];
                                   wd_remaining := if len =? 0 then None else Some len |} in
                      wd_loop fuel' n s' l'
                  end
              end
          end
      end
  end.

(** witness.rs:343-378 *)
Definition wd_push (s : wd_state) (l : bytes) : wd_state * bytes * pstatus wd_err :=
  match wd_elements s with
  | Some n => wd_loop (length l) n s l
  | None =>
      let put b e := {| wd_content := wd_content s; wd_count := b; wd_elements := e;
                        wd_idx := wd_idx s; wd_len := wd_len s; wd_remaining := wd_remaining s |} in
      match cs_push (wd_count s) l with
      | (b, l', NeedsMore) => (put b None, l', NeedsMore)
      | (b, l', PErr e) => (put b None, l', PErr (WdPrefix e))
      | (b, l', PPanic) => (put b None, l', PPanic)
      | (b, l', Ready) =>
          match cs_fin MAX_WITNESS_STACK_ITEMS b with
          | Err e => (put [] None, l', PErr (WdPrefix e))
          | Ok n => if n =? 0 then (put [] (Some n), l', Ready)
                    else wd_loop (length l') n (put [] (Some n)) l'
          end
      end
  end.

(** witness.rs:462-474: [read_pos] walks over the elements, an index is appended for each. *)
Fixpoint wd_index (k : nat) (content : bytes) (start read_pos : N) : rust bytes :=
  match k with
  | O => Ret content
  | S k' =>
      if U32_MAX <? read_pos then Panic
      else if start <? read_pos then Panic
      else
        let sl := takeN (start - read_pos) (dropN read_pos content) in
        rbind (decode_unchecked sl) (fun '(element_length, rest) =>
        wd_index k' (content ++ le_bytes 4 read_pos) start
                 (read_pos + (lenN sl - lenN rest) + element_length))
  end.

(** witness.rs:443-480 *)
Definition wd_fin (s : wd_state) : rust (result witness wd_err) :=
  match wd_elements s with
  | None => Ret (Err (WdEof 0))
  | Some n =>
      if n <? wd_idx s then Panic
      else if n - wd_idx s =? 0 then
        let start := lenN (wd_content s) in
        rbind (wd_index (N.to_nat n) (wd_content s) start 0) (fun c =>
        Ret (Ok {| wt_content := c; wt_elements := n; wt_start := start |}))
      else Ret (Err (WdEof (n - wd_idx s)))
  end.

(** witness.rs:482-493 *)
Definition wd_lim (s : wd_state) : N :=
  match wd_elements s with
  | None => cs_lim (wd_count s)
  | Some _ => match wd_remaining s with None => cs_lim (wd_len s) | Some r => r end
  end.

Definition wd_init : wd_state :=
  {| wd_content := []; wd_count := []; wd_elements := None; wd_idx := 0; wd_len := []; wd_remaining := None |}.

Definition witness_dec : decoder witness wd_err :=
  {| st := wd_state; init := wd_init; push := wd_push; fin := wd_fin; lim := wd_lim |}.
