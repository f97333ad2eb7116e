(** Compact block filters: bitcoin/src/bip158.rs.  usize has 64 bits; overflow checks are on.  Writers are vectors and readers
    slices, so the only reading error is the end of the data. *)
From Verif Require Import Base MDec MWitness MTx MSip MScript MBip152.
Local Open Scope N_scope.
Definition U64 : N := 18446744073709551616.

(** ** Bit streams *)
Inductive io_err := UnexpectedEof | TooManyBits.
(** bip158.rs:411-419 *)
Record bit_reader := mk_br { br_buf : N; br_off : N; br_src : bytes }.
Definition reader_new (src : bytes) : bit_reader := mk_br 0 8 src.
(** bip158.rs:441-451: one turn of the loop per unit of fuel, at most [nbits] *)
Fixpoint read_loop (fuel : nat) (r : bit_reader) (nbits data : N) : result (N * bit_reader) io_err :=
  if nbits =? 0 then Ok (data, r) else
  match fuel with
  | O => Ok (data, r)
  | S fuel' =>
      let step (r : bit_reader) :=
        let bits := N.min (8 - br_off r) nbits in
        let data := N.lor (N.shiftl data bits mod U64) (N.shiftr (N.shiftl (br_buf r) (br_off r) mod 256) (8 - bits)) in
        read_loop fuel' (mk_br (br_buf r) (br_off r + bits) (br_src r)) (nbits - bits) data in
      if br_off r =? 8 then
        match br_src r with
        | [] => Err UnexpectedEof
        | b :: src => step (mk_br b 0 src)
        end
      else step r
  end.
(** bip158.rs:433-453 *)
Definition br_read (r : bit_reader) (nbits : N) : result (N * bit_reader) io_err :=
  if 64 <? nbits then Err TooManyBits else read_loop (N.to_nat nbits) r nbits 0.
(** bip158.rs:457-465; [bw_out] is what the writer got so far *)
Record bit_writer := mk_bw { bw_buf : N; bw_off : N; bw_out : bytes }.
Definition writer_new (out : bytes) : bit_writer := mk_bw 0 0 out.
(** bip158.rs:489-498 *)
Definition bw_flush (w : bit_writer) : bit_writer * N :=
  if 0 <? bw_off w then (mk_bw 0 0 (bw_out w ++ [bw_buf w]), 1) else (w, 0).
(** bip158.rs:476-484 *)
Fixpoint write_loop (fuel : nat) (w : bit_writer) (data nbits wrote : N) : bit_writer * N :=
  if nbits =? 0 then (w, wrote) else
  match fuel with
  | O => (w, wrote)
  | S fuel' =>
      let bits := N.min (8 - bw_off w) nbits in
      let buf := N.lor (bw_buf w) (N.shiftr (N.shiftl data (64 - nbits) mod U64) (56 + bw_off w) mod 256) in
      let w := mk_bw buf (bw_off w + bits) (bw_out w) in
      let nbits := nbits - bits in
      if bw_off w =? 8 then let '(w, n) := bw_flush w in write_loop fuel' w data nbits (wrote + n)
      else write_loop fuel' w data nbits wrote
  end.
(** bip158.rs:468-486 *)
Definition bw_write (w : bit_writer) (data nbits : N) : result (bit_writer * N) io_err :=
  if 64 <? nbits then Err TooManyBits else Ok (write_loop (N.to_nat nbits) w data nbits 0).

(** ** Golomb-Rice coding *)
(** bip158.rs:380-385: [q] ones, 64 at a time; fuel is a bound on the number of turns *)
Fixpoint write_ones (fuel : nat) (w : bit_writer) (q wrote : N) : result (bit_writer * N) io_err :=
  if q =? 0 then Ok (w, wrote) else
  match fuel with
  | O => Ok (w, wrote)
  | S fuel' =>
      let nbits := N.min q 64 in
      match bw_write w (U64 - 1) nbits with
      | Err e => Err e
      | Ok (w, n) => write_ones fuel' w (q - nbits) (wrote + n)
      end
  end.
(** bip158.rs:371-389; a shift by 64 or more overflows *)
Definition golomb_rice_encode (p : N) (w : bit_writer) (n : N) : rust (result (bit_writer * N) io_err) :=
  if 64 <=? p then Panic else
  Ret (match write_ones (N.to_nat (N.shiftr n p)) w (N.shiftr n p) 0 with
       | Err e => Err e
       | Ok (w, a) => match bw_write w 0 1 with
                      | Err e => Err e
                      | Ok (w, b) => match bw_write w n p with Err e => Err e | Ok (w, c) => Ok (w, a + b + c) end
                      end
       end).
(** bip158.rs:396-399; the fuel exceeds the number of bits left, running out of it is a panic here *)
Fixpoint read_ones (fuel : nat) (r : bit_reader) (q : N) : rust (result (N * bit_reader) io_err) :=
  match fuel with
  | O => Panic
  | S fuel' =>
      match br_read r 1 with
      | Err e => Ret (Err e)
      | Ok (b, r) => if b =? 1 then if U64 <=? q + 1 then Panic else read_ones fuel' r (q + 1) else Ret (Ok (q, r))
      end
  end.
Definition bits_left (r : bit_reader) : nat := (N.to_nat (8 - br_off r) + 8 * length (br_src r))%nat.
(** bip158.rs:392-402: the left shift loses high bits, by 64 or more it overflows *)
Definition golomb_rice_decode (p : N) (r : bit_reader) : rust (result (N * bit_reader) io_err) :=
  rbind (read_ones (S (bits_left r)) r 0) (fun x =>
  match x with
  | Err e => Ret (Err e)
  | Ok (q, r) =>
      match br_read r p with
      | Err e => Ret (Err e)
      | Ok (low, r) =>
          if 64 <=? p then Panic else
          let s := N.shiftl q p mod U64 + low in
          if U64 <=? s then Panic else Ret (Ok (s, r))
      end
  end).

(** ** Golomb coded sets *)
(** bip158.rs:307 *)
Definition map_to_range (hash nm : N) : N := N.shiftr (hash * nm) 64 mod U64.
(** bip158.rs:360-364 *)
Record gcs := mk_gcs { g_k0 : N; g_k1 : N; g_m : N; g_p : N }.
(** bip158.rs:405-407 *)
Definition gcs_hash (g : gcs) (element : bytes) : rust N := hash_to_u64_with_keys (g_k0 g) (g_k1 g) element.
Fixpoint map_elements (g : gcs) (nm : N) (l : list bytes) : rust (list N) :=
  match l with
  | [] => Ret []
  | e :: l' => rbind (gcs_hash g e) (fun h => rbind (map_elements g nm l') (fun r => Ret (map_to_range h nm :: r)))
  end.
(** bip158.rs:324-328; the set is a list without duplicates *)
Definition add_element (els : list bytes) (e : bytes) : list bytes :=
  match e with
  | [] => els
  | _ => if existsb (beqb e) els then els else els ++ [e]
  end.
(** bip158.rs:350-353 *)
Fixpoint encode_deltas (p : N) (w : bit_writer) (last : N) (l : list N) (wrote : N) : rust (result (bit_writer * N) io_err) :=
  match l with
  | [] => Ret (Ok (w, wrote))
  | d :: l' =>
      if d <? last then Panic else
      rbind (golomb_rice_encode p w (d - last)) (fun x =>
      match x with Err e => Ret (Err e) | Ok (w, n) => encode_deltas p w d l' (wrote + n) end)
  end.
(** bip158.rs:331-356: the bytes after [out], and the number of bytes written *)
Definition gcs_finish (g : gcs) (els : list bytes) (out : bytes) : rust (result (bytes * N) io_err) :=
  let n := lenN els in
  if U64 <=? n * g_m g then Panic else
  rbind (map_elements g (n * g_m g) els) (fun mapped =>
  let cs := cs_encode (lenN mapped) in
  rbind (encode_deltas (g_p g) (writer_new (out ++ cs)) 0 (sort_n mapped) (lenN cs)) (fun x =>
  match x with
  | Err e => Ret (Err e)
  | Ok (w, wrote) => let '(w, k) := bw_flush w in Ret (Ok (bw_out w, wrote + k))
  end)).

(** bip158.rs:513-520 *)
Inductive filter_err := InvalidCompactSize (e : cs_err) | FilterIo (e : io_err).
(** bip158.rs:243-255: advance to the first value not below [p]; None when there is none *)
Fixpoint advance (gp : N) (remaining : nat) (r : bit_reader) (data p : N) : rust (result (option (nat * bit_reader * N)) io_err) :=
  if p <=? data then Ret (Ok (Some (remaining, r, data))) else
  match remaining with
  | O => Ret (Ok None)
  | S rem =>
      rbind (golomb_rice_decode gp r) (fun x =>
      match x with
      | Err e => Ret (Err e)
      | Ok (d, r) => if U64 <=? data + d then Panic else advance gp rem r (data + d) p
      end)
  end.
(** bip158.rs:242-257 *)
Fixpoint any_loop (gp : N) (mapped : list N) (remaining : nat) (r : bit_reader) (data : N) : rust (result bool io_err) :=
  match mapped with
  | [] => Ret (Ok false)
  | p :: mapped' =>
      rbind (advance gp remaining r data p) (fun x =>
      match x with
      | Err e => Ret (Err e)
      | Ok None => Ret (Ok false)
      | Ok (Some (rem, r, data)) => if data =? p then Ret (Ok true) else any_loop gp mapped' rem r data
      end)
  end.
(** bip158.rs:287-302 *)
Fixpoint all_loop (gp : N) (mapped : list N) (remaining : nat) (r : bit_reader) (data : N) : rust (result bool io_err) :=
  match mapped with
  | [] => Ret (Ok true)
  | p :: mapped' =>
      rbind (advance gp remaining r data p) (fun x =>
      match x with
      | Err e => Ret (Err e)
      | Ok None => Ret (Ok false)
      | Ok (Some (rem, r, data)) => if data =? p then all_loop gp mapped' rem r data else Ret (Ok false)
      end)
  end.
(** Vec::dedup: of equal neighbours the first stays *)
Fixpoint dedup (l : list N) : list N :=
  match l with
  | x :: l' => match l' with y :: _ => if x =? y then dedup l' else x :: dedup l' | [] => [x] end
  | [] => []
  end.
(** bip158.rs:223-241 and 267-286: the parts common to both; the count is read with the driver of C03 (io/src/lib.rs:528-568) on
    a slice *)
Definition with_filter (g : gcs) (content : bytes) (query : list bytes) (k : N -> list N -> bytes -> rust (result bool filter_err)) : rust (result bool filter_err) :=
  rbind (decode_from_slice_unbounded cs_u64_dec content) (fun '(x, src) =>
  match x with
  | Err e => Ret (Err (InvalidCompactSize e))
  | Ok n =>
      if U64 <=? n * g_m g then Panic else
      rbind (map_elements g (n * g_m g) query) (fun mapped => k n (sort_n mapped) src)
  end).
Definition io_result (x : rust (result bool io_err)) : rust (result bool filter_err) :=
  rbind x (fun x => Ret (match x with Ok b => Ok b | Err e => Err (FilterIo e) end)).
Definition start_loop (g : gcs) (loop : N -> list N -> nat -> bit_reader -> N -> rust (result bool io_err)) (n : N) (mapped : list N) (src : bytes)
  : rust (result bool filter_err) :=
  io_result (rbind (golomb_rice_decode (g_p g) (reader_new src)) (fun x =>
    match x with Err e => Ret (Err e) | Ok (data, r) => loop (g_p g) mapped (N.to_nat (n - 1)) r data end)).
(** bip158.rs:217-258 *)
Definition gcs_match_any (g : gcs) (content : bytes) (query : list bytes) : rust (result bool filter_err) :=
  with_filter g content query (fun n mapped src =>
    match mapped with
    | [] => Ret (Ok false)
    | _ => if n =? 0 then Ret (Ok false) else start_loop g any_loop n mapped src
    end).
(** bip158.rs:261-303 *)
Definition gcs_match_all (g : gcs) (content : bytes) (query : list bytes) : rust (result bool filter_err) :=
  with_filter g content query (fun n mapped src =>
    match dedup mapped with
    | [] => Ret (Ok true)
    | _ => if n =? 0 then Ret (Ok false) else start_loop g all_loop n (dedup mapped) src
    end).

(** ** Block filters *)
(** bip158.rs:58-59 *)
Definition FILTER_P : N := 19.
Definition FILTER_M : N := 784931.
(** bip158.rs:123-129, 176-181 *)
Definition block_gcs (hash : bytes) : gcs := mk_gcs (le_val (takeN 8 hash)) (le_val (takeN 8 (dropN 8 hash))) FILTER_M FILTER_P.
(** bip158.rs:132-140 *)
Definition add_output_scripts (b : block) (els : list bytes) : list bytes :=
  fold_left (fun els tx => fold_left (fun els o => if is_op_return (to_script o) then els else add_element els (to_script o)) (tx_outputs tx) els) (b_txs b) els.
(** bip158.rs:143-160 *)
Section Coins.
Context {E : Type} (script_for_coin : outpoint -> result bytes E).
Fixpoint add_scripts (ops : list outpoint) (els : list bytes) : result (list bytes) E :=
  match ops with
  | [] => Ok els
  | o :: ops' => match script_for_coin o with Err e => Err e | Ok s => add_scripts ops' (add_element els s) end
  end.
Definition add_input_scripts (b : block) (els : list bytes) : result (list bytes) E :=
  add_scripts (flat_map (fun t => map ti_prevout (tx_inputs t)) (skipn 1 (b_txs b))) els.
Inductive new_err := NewCoin (e : E) | NewIo (e : io_err).
(** bip158.rs:73-89; block.rs:492: the block hash is the double SHA256 of the header *)
Definition new_script_filter (sha256d : bytes -> bytes) (b : block) : rust (result bytes new_err) :=
  match add_input_scripts b (add_output_scripts b []) with
  | Err e => Ret (Err (NewCoin e))
  | Ok els =>
      rbind (gcs_finish (block_gcs (sha256d (header_encode (b_header b)))) els []) (fun x =>
      Ret (match x with Err e => Err (NewIo e) | Ok (content, _) => Ok content end))
  end.
End Coins.
(** bip158.rs:92, 95-112 *)
Definition filter_hash (sha256d : bytes -> bytes) (content : bytes) : bytes := sha256d content.
Definition match_any (content : bytes) (block_hash : bytes) (query : list bytes) := gcs_match_any (block_gcs block_hash) content query.
Definition match_all (content : bytes) (block_hash : bytes) (query : list bytes) := gcs_match_all (block_gcs block_hash) content query.

(** ** Programs using the bit streams and the coder (bip158.rs:371-498) a number of times, for the theorems *)
Fixpoint write_all (w : bit_writer) (l : list (N * N)) : result (bit_writer * N) io_err :=
  match l with
  | [] => Ok (w, 0)
  | (d, n) :: l' => match bw_write w d n with Err e => Err e | Ok (w, k) => match write_all w l' with Err e => Err e | Ok (w, k') => Ok (w, k + k') end end
  end.
Fixpoint read_all (r : bit_reader) (l : list N) : result (list N * bit_reader) io_err :=
  match l with
  | [] => Ok ([], r)
  | n :: l' => match br_read r n with Err e => Err e | Ok (v, r) => match read_all r l' with Err e => Err e | Ok (vs, r) => Ok (v :: vs, r) end end
  end.
Fixpoint encode_all (p : N) (w : bit_writer) (l : list N) : rust (result (bit_writer * N) io_err) :=
  match l with
  | [] => Ret (Ok (w, 0))
  | n :: l' => rbind (golomb_rice_encode p w n) (fun x => match x with Err e => Ret (Err e) | Ok (w, k) =>
      rbind (encode_all p w l') (fun x => match x with Err e => Ret (Err e) | Ok (w, k') => Ret (Ok (w, k + k')) end) end)
  end.
Fixpoint decode_all (p : N) (r : bit_reader) (count : nat) : rust (result (list N * bit_reader) io_err) :=
  match count with
  | O => Ret (Ok ([], r))
  | S c => rbind (golomb_rice_decode p r) (fun x => match x with Err e => Ret (Err e) | Ok (v, r) =>
      rbind (decode_all p r c) (fun x => match x with Err e => Ret (Err e) | Ok (vs, r) => Ret (Ok (v :: vs, r)) end) end)
  end.
