(** Property C72: errors and adapters between this library's I/O traits and the standard library's.  Model: MBridge.v.
    The specification is in the statements: two errors say the same when kind and boxed error are the same. *)
From Coq Require Import String.
From Verif Require Import Base MText MBridge.
Local Open Scope list_scope.
Local Open Scope N_scope.

(** * Kinds *)
(** Each kind has its own counterpart with its name, and comes back from it; every other kind of the standard library becomes Other. *)
Theorem C72_kinds : (forall k, from_std (to_std k) = k) /\
  forall s, (exists k, to_std k = s) \/ ((forall k, to_std k <> s) /\ from_std s = Other).
Proof.
  split; [now intros []|]. intro s. destruct s; try (right; split; [intros []; discriminate|reflexivity]); left;
    match goal with |- exists k, to_std k = ?s => exists (from_std s); reflexivity end.
Qed.
(** The names are those of the kinds, all different, with no dot in them. *)
Lemma description_inj : forall a b, description a = description b -> a = b.
Proof. intros a b H. destruct a; destruct b; try reflexivity; discriminate H. Qed.
Lemma description_dot : forall k, ~ In 46 (description k).
Proof. intros k I. destruct k; vm_compute in I; intuition discriminate. Qed.

Section Errors.
  Context {P : Type} (os_kind : Z -> std_kind) (debug : P -> str) (p_source : P -> option P).
  Notation of_std := (error_of_std os_kind).

  (** * Errors *)
  (** Nothing is lost on the way to the standard library and back. *)
  Theorem C72_round_trip : forall e : error P, of_std (std_of_error e) = e.
  Proof. intros [k [p|]]; unfold std_of_error, error_of_std; cbn [e_kind e_error std_kind_of std_into_inner]; now rewrite (proj1 C72_kinds). Qed.
  (** The other way: a boxed error and its source are always kept, the kind when this library has it; the whole error exactly
      when it has neither an OS code nor a constant message and its kind is known here. *)
  Theorem C72_from_std : forall e : std_error P, let b := std_of_error (of_std e) in
    std_into_inner b = std_into_inner e /\ std_source p_source b = std_source p_source e /\
    error_source p_source (of_std e) = std_source p_source e /\ e_error (of_std e) = std_into_inner e /\
    ((exists k, to_std k = std_kind_of os_kind e) -> std_kind_of os_kind b = std_kind_of os_kind e) /\
    ((forall k, to_std k <> std_kind_of os_kind e) -> std_kind_of os_kind b = SOther) /\
    (b = e <-> (exists k, e = Simple (to_std k)) \/ (exists k p, e = Custom (to_std k) p)).
  Proof.
    intros e b. subst b.
    assert (K : (exists k, to_std k = std_kind_of os_kind e) -> to_std (from_std (std_kind_of os_kind e)) = std_kind_of os_kind e) by (intros [k <-]; now rewrite (proj1 C72_kinds)).
    assert (U : (forall k, to_std k <> std_kind_of os_kind e) -> to_std (from_std (std_kind_of os_kind e)) = SOther).
    { intro H. destruct (proj2 C72_kinds (std_kind_of os_kind e)) as [[k E]|[_ ->]]; [now apply H in E|reflexivity]. }
    unfold std_of_error, error_of_std, error_source, std_source in *. destruct e as [c|k|k m|k p]; cbn [e_kind e_error std_kind_of std_into_inner] in *; repeat split; auto.
    - discriminate.
    - intros [[k E]|[k [p E]]]; discriminate E.
    - intro E. left. exists (from_std k). congruence.
    - intros [[k' E]|[k' [p E]]]; [|discriminate E]. injection E as ->. now rewrite (proj1 C72_kinds).
    - discriminate.
    - intros [[k' E]|[k' [p E]]]; discriminate E.
    - intro E. right. exists (from_std k), p. congruence.
    - intros [[k' E]|[k' [p' E]]]; [discriminate E|]. injection E as -> ->. now rewrite (proj1 C72_kinds).
  Qed.
  (** Interrupted and UnexpectedEof, on which the drivers decide, are never made nor hidden by the conversion. *)
  Theorem C72_decisive : forall e : std_error P,
    (e_kind (of_std e) = Interrupted <-> std_kind_of os_kind e = SInterrupted) /\
    (e_kind (of_std e) = UnexpectedEof <-> std_kind_of os_kind e = SUnexpectedEof) /\
    (e_kind (of_std e) = WouldBlock <-> std_kind_of os_kind e = SWouldBlock).
  Proof. intro e. unfold error_of_std. cbn [e_kind]. destruct (std_kind_of os_kind e); cbn [from_std]; repeat split; congruence. Qed.
  (** An OS error code does not survive. *)
  Theorem C72_os_refuted : forall c, exists e : std_error P, std_raw_os_error e = Some c /\ e_error (of_std e) = None /\ std_raw_os_error (std_of_error (of_std e)) = None.
  Proof. intro c. exists (Os c). repeat split. Qed.
  (** Nor do the newer kinds. *)
  Theorem C72_kind_refuted : exists e : std_error P, std_kind_of os_kind e = SOutOfMemory /\ std_kind_of os_kind (std_of_error (of_std e)) = SOther.
  Proof. exists (Simple SOutOfMemory). split; reflexivity. Qed.
  (** The text says the kind, and the boxed error after it. *)
  Theorem C72_display : forall a b : error P, error_display debug a = error_display debug b -> e_kind a = e_kind b /\
    match e_error a, e_error b with None, None => True | Some p, Some q => debug p = debug q | _, _ => False end.
  Proof.
    intros [ka pa] [kb pb]. unfold error_display. cbn [e_kind e_error]. intro E. apply app_inv_head in E.
    assert (C : forall s t x y, ~ In 46 s -> ~ In 46 t -> s ++ 46 :: x = t ++ 46 :: y -> s = t /\ x = y).
    { induction s as [|u s IH]; intros [|v t] x y A B Q; cbn [app] in Q.
      - now injection Q as ->.
      - injection Q as Q _. subst v. destruct B. now left.
      - injection Q as Q _. subst u. destruct A. now left.
      - injection Q as -> Q. destruct (IH t x y) as [-> ->]; auto; intro I; [apply A|apply B]; now right. }
    change (lit ". ") with ([46; 32]) in E. cbn [app] in E. destruct pa as [p|], pb as [q|].
    - apply C in E as [D E]; try apply description_dot. injection E as E. auto using description_inj.
    - exfalso. rewrite app_nil_r in E. apply (description_dot kb). rewrite <- E. apply in_elt.
    - exfalso. rewrite app_nil_r in E. apply (description_dot ka). rewrite E. apply in_elt.
    - rewrite !app_nil_r in E. auto using description_inj.
  Qed.
  (** The two cases of a read error cannot be mistaken. *)
  Theorem C72_read_error : forall D (dd : D -> str) e d, read_error_display debug dd (RIo e) <> read_error_display debug dd (RDecode d).
  Proof. intros D dd e d. discriminate. Qed.

  (** * Adapters *)
  Definition same_answer {E F} (f : E -> F) (a : answer E) : answer F :=
    match a with
    | ABytes r => ABytes (map_err f r) | AExact r b => AExact (map_err f r) b | ADone => ADone | ACount r => ACount (map_err f r)
    | AUnit r => AUnit (map_err f r)
    end.
  Definition mapped {E F S} (f : E -> F) (r : rust (list (answer E) * S)) : rust (list (answer F) * S) :=
    match r with Ret (l, s) => Ret (map (same_answer f) l, s) | Panic => Panic end.
  Lemma run_mapped : forall E F S (f : E -> F) (t : stream E S) (u : stream F S),
    (forall s c, step u s c = match step t s c with Ret (a, s') => Ret (same_answer f a, s') | Panic => Panic end) ->
    forall cs s, run u s cs = mapped f (run t s cs).
  Proof.
    intros E F S f t u K. induction cs as [|c cs IH]; intro s; [reflexivity|]. cbn [run]. rewrite K. destruct (step t s c) as [[a s']|]; [|reflexivity]. cbn [rbind]. rewrite IH.
    destruct (run t s' cs) as [[l s'']|]; reflexivity.
  Qed.
  Lemma step_from : forall S (t : stream (std_error P) S) s c, step (FromStd os_kind t) s c = match step t s c with Ret (a, s') => Ret (same_answer of_std a, s') | Panic => Panic end.
  Proof.
    intros S t s []; unfold step, FromStd; cbn [s_read s_read_exact s_fill s_consume s_write s_flush s_write_all]; unfold map_res, map_res3;
      [destruct (s_read t s n) as [[r s']|]|destruct (s_read_exact t s n) as [[[r b] s']|]|destruct (s_fill t s) as [[r s']|]|destruct (s_consume t s n)|destruct (s_write t s b) as [[r s']|]|destruct (s_flush t s) as [[r s']|]|destruct (s_write_all t s b) as [[r s']|]]; reflexivity.
  Qed.
  Lemma step_to : forall S (t : stream (error P) S) s c, step (ToStd t) s c = match step t s c with Ret (a, s') => Ret (same_answer std_of_error a, s') | Panic => Panic end.
  Proof.
    intros S t s []; unfold step, ToStd; cbn [s_read s_read_exact s_fill s_consume s_write s_flush s_write_all]; unfold map_res, map_res3;
      [destruct (s_read t s n) as [[r s']|]|destruct (s_read_exact t s n) as [[[r b] s']|]|destruct (s_fill t s) as [[r s']|]|destruct (s_consume t s n)|destruct (s_write t s b) as [[r s']|]|destruct (s_flush t s) as [[r s']|]|destruct (s_write_all t s b) as [[r s']|]]; reflexivity.
  Qed.
  (** Whatever the wrapped type does, and for any history of calls: the adapter moves it through the same states and gives the
      same answers, with each error converted; wrapped the one way and then the other, the answers are the very same. *)
  Theorem C72_adapters : forall S (t : stream (std_error P) S) (u : stream (error P) S) (s : S) cs,
    run (FromStd os_kind t) s cs = mapped of_std (run t s cs) /\ run (ToStd u) s cs = mapped std_of_error (run u s cs) /\
    run (FromStd os_kind (ToStd u)) s cs = run u s cs /\ run (FromStd_std t) s cs = run t s cs /\ run (ToStd_our u) s cs = run u s cs.
  Proof.
    intros S t u s cs. split; [apply run_mapped, step_from|]. split; [apply run_mapped, step_to|]. split; [|split; [now destruct t|now destruct u]].
    rewrite (run_mapped _ _ _ of_std (ToStd u)) by apply step_from. rewrite (run_mapped _ _ _ std_of_error u) by apply step_to.
    destruct (run u s cs) as [[l s']|]; [|reflexivity]. cbn [mapped]. f_equal. f_equal. rewrite map_map. rewrite <- (map_id l) at 2. apply map_ext.
    assert (M : forall A (r : result A (error P)), map_err of_std (map_err std_of_error r) = r) by (intros A [a|e]; cbn [map_err]; [reflexivity|now rewrite C72_round_trip]).
    intros []; cbn [same_answer]; now rewrite ?M.
  Qed.

  (** * Provided methods *)
  (** Filling a buffer through the adapter with this library's read_exact does what the standard library's does: the same number
      of reads, bytes and state, and the same error up to the conversion. *)
  Theorem C72_read_exact : forall S (t : stream (std_error P) S) fuel s n got,
    our_read_exact (s_read (FromStd os_kind t)) fuel s n got =
    match std_read_exact os_kind (s_read t) fuel s n got with
    | Some (Ret (r, b, s')) => Some (Ret (map_err of_std r, b, s'))
    | Some Panic => Some Panic
    | None => None
    end.
  Proof.
    intros S t. induction fuel as [|f IH]; intros s n got; cbn [our_read_exact std_read_exact]; (destruct (n =? 0); [reflexivity|]); [reflexivity|].
    cbn [s_read FromStd]. unfold map_res. destruct (s_read t s n) as [[[bs|e] s']|]; cbn [rbind map_err]; [| |reflexivity].
    - destruct bs as [|x bs]; [reflexivity|]. destruct (n <? lenN (x :: bs)); [reflexivity|]. apply IH.
    - unfold error_of_std at 1. cbn [e_kind]. destruct (std_kind_of os_kind e) eqn:K; cbn [from_std]; try reflexivity. apply IH.
  Qed.
  (** So with write_all, but for one answer: when the writer takes nothing, the standard library says WriteZero and this library
      UnexpectedEof. *)
  Definition as_ours (e : std_error P) : error P := match e with SimpleMessage SWriteZero _ => error_from_kind UnexpectedEof | _ => of_std e end.
  Theorem C72_write_all : forall S (t : stream (std_error P) S),
    (forall s b e s', s_write t s b = Ret (Err e, s') -> forall m, e <> SimpleMessage SWriteZero m) ->
    forall fuel s buf,
    our_write_all (s_write (FromStd os_kind t)) fuel s buf =
    match std_write_all os_kind (s_write t) fuel s buf with
    | Some (Ret (r, s')) => Some (Ret (map_err as_ours r, s'))
    | Some Panic => Some Panic
    | None => None
    end.
  Proof.
    intros S t W. induction fuel as [|f IH]; intros s buf; cbn [our_write_all std_write_all]; (destruct buf as [|x buf]; [reflexivity|]); [reflexivity|].
    cbn [s_write FromStd]. unfold map_res. destruct (s_write t s (x :: buf)) as [[[k|e] s']|] eqn:E; cbn [rbind map_err]; [| |reflexivity].
    - destruct k as [|k]; [reflexivity|]. destruct (lenN (x :: buf) <? N.pos k); [reflexivity|]. apply IH.
    - assert (A : as_ours e = of_std e). { unfold as_ours. destruct e as [| | |]; try reflexivity. destruct k; try reflexivity. now destruct (W _ _ _ _ E message). } 
      unfold error_of_std at 1. cbn [e_kind]. destruct (std_kind_of os_kind e) eqn:K; cbn [from_std]; try (cbn [map_err]; now rewrite A). apply IH.
  Qed.
  (** A full writer: the same call gives two kinds, depending on whose provided method runs. *)
  Theorem C72_write_zero_refuted : exists (t : stream (std_error P) unit) r1 r2,
    our_write_all (s_write (FromStd os_kind t)) 1 tt [1] = Some (Ret (Err r1, tt)) /\
    std_write_all os_kind (s_write t) 1 tt [1] = Some (Ret (Err r2, tt)) /\ e_kind r1 = UnexpectedEof /\ e_kind (of_std r2) = WriteZero.
  Proof.
    exists (mk_stream (fun s _ => Ret (Ok [], s)) (fun s _ => Ret (Ok tt, [], s)) (fun s => Ret (Ok [], s)) (fun s _ => Ret s) (fun s _ => Ret (Ok 0, s)) (fun s => Ret (Ok tt, s)) (fun s _ => Ret (Ok tt, s))).
    eexists. eexists. repeat split; reflexivity.
  Qed.
End Errors.

(** * Examples *)
Definition ex_os (c : Z) : std_kind := if (c =? 4)%Z then SInterrupted else if (c =? 2)%Z then SNotFound else SUncategorized.
Example C72_ex_convert : error_of_std (P := str) ex_os (Os 2) = mk_error NotFound None /\ std_of_error (mk_error (P := str) TimedOut (Some (lit "late"))) = Custom STimedOut (lit "late") /\
  error_display (fun s : str => s) (mk_error TimedOut (Some (lit "late"))) = lit "I/O Error: TimedOut. late".
Proof. repeat split; reflexivity. Qed.
(** a reader that is interrupted, then gives two bytes at a time of what is left *)
Definition ex_stream : stream (std_error str) (bool * bytes) :=
  mk_stream (fun '(i, l) n => if i : bool then Ret (Err (Os 4), (false, l)) else Ret (Ok (firstn 2 l), (true, skipn 2 l)))
    (fun s _ => Ret (Ok tt, [], s)) (fun s => Ret (Ok [], s)) (fun s _ => Ret s) (fun s b => Ret (Ok (lenN b), s)) (fun s => Ret (Ok tt, s)) (fun s _ => Ret (Ok tt, s)).
Example C72_ex_read : our_read_exact (s_read (FromStd ex_os ex_stream)) 5 (true, [1; 2; 3; 4; 5]) 4 [] = Some (Ret (Ok tt, [1; 2; 3; 4], (true, [5]))) /\
  our_read_exact (s_read (FromStd ex_os ex_stream)) 5 (false, [1; 2]) 4 [] = Some (Ret (Err (error_from_kind UnexpectedEof), [1; 2], (true, []))) /\
  run (FromStd ex_os ex_stream) (true, [7; 8; 9]) [Read 2; Read 2; Flush] = Ret ([ABytes (Err (mk_error Interrupted None)); ABytes (Ok [7; 8]); AUnit (Ok tt)], (true, [9])).
Proof. repeat split; reflexivity. Qed.
Example C72_ex_writer : forall s b e s', s_write ex_stream s b = Ret (Err e, s') -> forall m, e <> SimpleMessage SWriteZero m.
Proof. intros s b e s' E. discriminate E. Qed.

Print Assumptions C72_kinds.
Print Assumptions C72_round_trip.
Print Assumptions C72_from_std.
Print Assumptions C72_decisive.
Print Assumptions C72_os_refuted.
Print Assumptions C72_kind_refuted.
Print Assumptions C72_display.
Print Assumptions C72_read_error.
Print Assumptions C72_adapters.
Print Assumptions C72_read_exact.
Print Assumptions C72_write_all.
Print Assumptions C72_write_zero_refuted.
