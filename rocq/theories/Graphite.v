(** Model of listener/graphite/listener.go: handleConn and handleLine.

    strconv.ParseFloat is a parameter [parse] (float64 bits, [None] for an
    error; Number.v has it, see C85).  The connection is the list of bytes read until it ends without a
    read error; accepting, closing and logging are not modelled. *)
From Coq Require Import ZArith List Bool.
From Verif Require Import Base Pb PbRecord Float Agg Writer Query.
Import ListNotations.
Open Scope Z_scope.

Definition ch_sp : Z := 32.
Definition ch_nl : Z := 10.
Definition ch_cr : Z := 13.

(** listener.go:134-148 handleLine: whether the line was accepted (no error
    returned) and the writer afterwards.  bytes.Split is [split_on] (Query.v) *)
Definition handle_line (parse : list Z -> option Z) (p : params) (now : Z) (line : list Z) (s : writer) : res (bool * writer) :=
  match split_on ch_sp [] line with
  | [metric; value; _] =>
      match parse value with
      | Some v => do s' <- w_add p now metric v [] s; Ok (true, s')
      | None => Ok (false, s)
      end
  | _ => Ok (false, s)
  end.

(** bufio.Scanner with ScanLines and its 64 KiB buffer: the tokens, and whether
    it ended without error.  [cur] is the line so far, reversed, [n] its length. *)
Definition max_line : Z := 65536.
Definition drop_cr (cur : list Z) : list Z := match cur with c :: cur' => if c =? ch_cr then rev cur' else rev cur | [] => [] end.
Fixpoint scan_ (cur : list Z) (n : Z) (s : list Z) : list (list Z) * bool :=
  if max_line <=? n then ([], false)                 (* the buffer is full: ErrTooLong *)
  else
    match s with
    | [] => (match cur with [] => [] | _ => [drop_cr cur] end, true)
    | c :: s =>
        if c =? ch_nl then let '(l, ok) := scan_ [] 0 s in (drop_cr cur :: l, ok)
        else scan_ (c :: cur) (n + 1) s
    end.
Definition scan (s : list Z) : list (list Z) * bool := scan_ [] 0 s.

(** listener.go:118-131 the loop of handleConn over the lines; [clock] gives
    time.Now() at each line *)
Fixpoint handle_lines (parse : list Z -> option Z) (p : params) (clock : nat -> Z) (i : nat) (l : list (list Z)) (s : writer) : res writer :=
  match l with
  | [] => Ok s
  | line :: l =>
      do r <- handle_line parse p (clock i) line s;
      handle_lines parse p clock (S i) l (snd r)
  end.
Definition handle_conn (parse : list Z -> option Z) (p : params) (clock : nat -> Z) (bytes : list Z) (s : writer) : res (bool * writer) :=
  let '(lines, ok) := scan bytes in
  do s' <- handle_lines parse p clock 0 lines s;
  Ok (ok, s').
