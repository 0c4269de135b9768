(** Model of how the graphite listener runs and stops:
    /repo/listener/graphite/listener.go:31-131, Run, handleListener and
    handleConn, with their goroutines: the caller of Run, the accept loop, and two
    goroutines per connection (the scanner loop and the one that closes the
    connection when the context is done).

    Steps are marked [true] when the outside world does them (a client connects or
    sends bytes or hangs up, the context is cancelled, the kernel refuses an accept)
    and [false] when a goroutine of the listener does.

    Simplifications: net.Listen and the start of the goroutine are one step;
    lis.Close of the deferred call (l.36) is part of the return; conn.Close and the
    wg.Done after it are one step, and so are the return of handleConn and the
    wg.Done of l.75; logging is left out. *)
From Coq Require Import ZArith List Bool.
From Verif Require Import Base Cache Graphite.
Import ListNotations.
Open Scope Z_scope.

(** ** bufio.Scanner fed byte by byte (compare [scan_] of Graphite.v): the unfinished
    line, reversed, and its length; [k_dead]: ErrTooLong *)
Record scanner := Scanner { k_cur : list Z; k_n : Z; k_dead : bool }.
Definition k_new : scanner := Scanner [] 0 false.
Definition k_byte (k : scanner) (c : Z) : scanner * list (list Z) :=
  if k_dead k then (k, [])
  else if c =? ch_nl then (k_new, [drop_cr (k_cur k)])
  else (Scanner (c :: k_cur k) (k_n k + 1) (max_line <=? k_n k + 1), []).
Fixpoint k_feed (k : scanner) (bs : list Z) : scanner * list (list Z) :=
  match bs with
  | [] => (k, [])
  | c :: bs =>
    let '(k, t) := k_byte k c in
    let '(k, ts) := k_feed k bs in
    (k, t ++ ts)
  end.
(** Read failed or gave io.EOF: the unfinished line is the last token *)
Definition k_end (k : scanner) : list (list Z) :=
  if k_dead k then [] else match k_cur k with [] => [] | cur => [drop_cr cur] end.

(** ** one connection *)
(** handleConn (l.88-131): in Scan; before handleLine of a line; out of the loop,
    before the deferred cancel; in the deferred wg.Wait; returned *)
Inductive hstate := HScan | HLine (line : list Z) | HEnd | HWait | HDone.
Record conn := Conn {
  c_h : hstate;
  c_scan : scanner;
  c_buf : list (list Z);      (* lines found, not yet returned by Scan *)
  c_over : bool;              (* a Read of the scanner failed *)
  c_own : bool;               (* cancel() of l.95 was called *)
  c_closed : bool;            (* conn.Close() of l.101 was called, its goroutine ended *)
  c_in : list Z;              (* history: the bytes received *)
  c_did : list (list Z)       (* history: the lines given to handleLine *)
}.
Definition conn_new : conn := Conn HScan k_new [] false false false [] [].

(** [stopped]: the context of handleListener is done.  The lines handled in the step
    are returned. *)
Inductive c_step (stopped : bool) : bool -> conn -> conn -> option (list Z) -> Prop :=
(* bytes arrive; the scanner asks for more only when it has no line left *)
| cs_data k i d b bs : bs <> [] -> k_dead k = false ->
    c_step stopped true (Conn HScan k [] false b false i d)
      (Conn HScan (fst (k_feed k bs)) (snd (k_feed k bs)) false b false (i ++ bs) d) None
(* the client hangs up, or reading fails *)
| cs_eof k i d b : k_dead k = false ->
    c_step stopped true (Conn HScan k [] false b false i d) (Conn HScan k (k_end k) true b false i d) None
(* reading from the closed connection fails *)
| cs_cut k i d b : k_dead k = false ->
    c_step stopped false (Conn HScan k [] false b true i d) (Conn HScan k (k_end k) true b true i d) None
(* l.112: Scan returns true *)
| cs_scan k t buf o b x i d :
    c_step stopped false (Conn HScan k (t :: buf) o b x i d) (Conn (HLine t) k buf o b x i d) None
(* l.113: handleLine *)
| cs_line k t buf o b x i d :
    c_step stopped false (Conn (HLine t) k buf o b x i d) (Conn HScan k buf o b x i (d ++ [t])) (Some t)
(* Scan returns false *)
| cs_end k o b x i d : o || k_dead k = true ->
    c_step stopped false (Conn HScan k [] o b x i d) (Conn HEnd k [] o b x i d) None
(* l.95: deferred cancel *)
| cs_cancel k buf o b x i d :
    c_step stopped false (Conn HEnd k buf o b x i d) (Conn HWait k buf o true x i d) None
(* l.100-101: the other goroutine *)
| cs_close h k buf o b i d : stopped || b = true ->
    c_step stopped false (Conn h k buf o b false i d) (Conn h k buf o b true i d) None
(* l.92: deferred wg.Wait *)
| cs_done k buf o b i d :
    c_step stopped false (Conn HWait k buf o b true i d) (Conn HDone k buf o b true i d) None.

(** ** the listener *)
(** Run (l.31-56): before net.Listen; in the select; before lis.Close; in wg.Wait;
    returned *)
Inductive gmain := GListen | GSelect | GClose | GWait | GRet (e : option Z).
(** the goroutine of l.42-45 with handleListener: not started; in Accept; Accept gave
    [e]; after the deferred cancel, in the deferred wg.Wait; before errs <- e; before
    wg.Done; ended *)
Inductive gacc := ANone | AAccept | AFail (e : Z) | AWait (e : Z) | ASend (e : Z) | ASent | AGone.
Record gstate := GS {
  g_main : gmain;
  g_acc : gacc;
  g_conns : list conn;
  g_open : bool;                       (* the listening socket is open *)
  g_done : bool;                       (* ctx is done *)
  g_stop : bool;                       (* cancel() of l.66 was called *)
  g_errs : option Z;                   (* the channel errs, capacity 1 *)
  g_failed : bool;                     (* history: Listen failed, or Accept on the open socket *)
  g_log : list (nat * list Z)          (* history: the lines handled, with their connection *)
}.
Definition g_init : gstate := GS GListen ANone [] false false false None false [].

Inductive g_step : bool -> gstate -> gstate -> Prop :=
(* the context is cancelled *)
| gs_ctx m a cs o d s x f l : g_step true (GS m a cs o d s x f l) (GS m a cs o true s x f l)
(* l.32-45 *)
| gs_listen d s x f l : g_step false (GS GListen ANone [] false d s x f l) (GS GSelect AAccept [] true d s x f l)
| gs_listen_fail e d s x f l : g_step true (GS GListen ANone [] false d s x f l) (GS (GRet (Some e)) ANone [] false d s x true l)
(* l.69-77 *)
| gs_accept m cs d s x f l :
    g_step true (GS m AAccept cs true d s x f l) (GS m AAccept (cs ++ [conn_new]) true d s x f l)
| gs_accept_fail m e cs d s x f l :
    g_step true (GS m AAccept cs true d s x f l) (GS m (AFail e) cs true d s x true l)
| gs_accept_closed m e cs d s x f l :
    g_step false (GS m AAccept cs false d s x f l) (GS m (AFail e) cs false d s x f l)
(* l.66, 63: deferred cancel, deferred wg.Wait *)
| gs_acc_cancel m e cs o d s x f l :
    g_step false (GS m (AFail e) cs o d s x f l) (GS m (AWait e) cs o d true x f l)
| gs_acc_wait m e cs o d s x f l : Forall (fun c => c_h c = HDone) cs ->
    g_step false (GS m (AWait e) cs o d s x f l) (GS m (ASend e) cs o d s x f l)
(* l.44, 43 *)
| gs_acc_send m e cs o d s f l :
    g_step false (GS m (ASend e) cs o d s None f l) (GS m ASent cs o d s (Some e) f l)
| gs_acc_done m cs o d s x f l :
    g_step false (GS m ASent cs o d s x f l) (GS m AGone cs o d s x f l)
(* l.47-55 *)
| gs_select_err a cs o d s e f l :
    g_step false (GS GSelect a cs o d s (Some e) f l) (GS (GRet (Some e)) a cs false d s None f l)
| gs_select_done a cs o s x f l :
    g_step false (GS GSelect a cs o true s x f l) (GS GClose a cs o true s x f l)
| gs_close a cs o d s x f l :
    g_step false (GS GClose a cs o d s x f l) (GS GWait a cs false d s x f l)
| gs_wait cs o d s x f l :
    g_step false (GS GWait AGone cs o d s x f l) (GS (GRet None) AGone cs false d s x f l)
(* a connection *)
| gs_conn b n c c' t m a cs o d s x f l : nth_error cs n = Some c -> c_step (d || s) b c c' t ->
    g_step b (GS m a cs o d s x f l)
      (GS m a (set_nth n c' cs) o d s x f (match t with Some t => l ++ [(n, t)] | None => l end)).

Inductive g_reach : gstate -> Prop :=
| g_reach_init : g_reach g_init
| g_reach_step b s s' : g_reach s -> g_step b s s' -> g_reach s'.
(** steps of the goroutines only *)
Inductive g_runs : nat -> gstate -> gstate -> Prop :=
| gr_refl s : g_runs 0 s s
| gr_step n s t u : g_step false s t -> g_runs n t u -> g_runs (S n) s u.
