(** Model of database/files/convert.go and of the data file names
    (database/files/metric.go:46-61, 118-126). *)
From Coq Require Import ZArith List Lia Bool.
From Verif Require Import Base.
Import ListNotations.
Open Scope Z_scope.

(** characters *)
Definition c_dot : Z := 46.
Definition c_slash : Z := 47.
Definition c_pct : Z := 37.
Definition c_2 : Z := 50.
Definition c_5 : Z := 53.
Definition c_e : Z := 101.
Definition c_f : Z := 102.
Definition s_2e : list Z := [c_pct; c_2; c_e].   (* "%2e" *)
Definition s_2f : list Z := [c_pct; c_2; c_f].   (* "%2f" *)
Definition s_25 : list Z := [c_pct; c_2; c_5].   (* "%25" *)
Definition s_data : list Z := [46; 100; 97; 116; 97]. (* ".data" *)

(** convert.go:14-38 the loop of metricToDir; state (buf, non_dots, dots) *)
Definition m2d_step (st : list Z * bool * Z) (ch : Z) : list Z * bool * Z :=
  let '(buf, non_dots, dots) := st in
  if ch =? c_dot then
    let buf := if (0 <? dots) || negb non_dots then buf ++ s_2e
               else buf ++ [c_slash] in
    (buf, non_dots, dots + 1)
  else
    let buf := if negb non_dots && (0 <? dots) then buf ++ [c_slash] else buf in
    let buf := if ch =? c_slash then buf ++ s_2f
               else if ch =? c_pct then buf ++ s_25
               else buf ++ [ch] in
    (buf, true, 0).

Fixpoint rep_2e (n : nat) : list Z :=
  match n with O => [] | S k => s_2e ++ rep_2e k end.

(** convert.go:40-52 the fix up after the loop *)
Definition m2d_finish (st : list Z * bool * Z) : list Z :=
  let '(buf, non_dots, dots) := st in
  if (0 <? dots) && non_dots then
    let back := 1 + (dots - 1) * 3 in
    firstn (length buf - Z.to_nat back) buf ++ [c_slash] ++ rep_2e (Z.to_nat dots)
  else buf.

(** convert.go:11-52 metricToDir(buf, metric) *)
Definition metricToDir (buf metric : list Z) : list Z :=
  m2d_finish (fold_left m2d_step metric (buf, false, 0)).

(** convert.go:57-96 the loop of dirToMetric; state (buf, last_dot, all_dots) *)
Fixpoint d2m_loop (dir : list Z) (buf : list Z) (last_dot all_dots : bool)
  : res (list Z * bool) :=
  match dir with
  | [] => Ok (buf, all_dots)
  | ch :: rest =>
      if ch =? c_slash then
        if negb last_dot then d2m_loop rest (buf ++ [c_dot]) true true
        else d2m_loop rest buf last_dot all_dots
      else if ch =? c_pct then
        match rest with
        | x :: y :: rest' =>
            if negb (x =? c_2) then Err
            else if y =? c_e then d2m_loop rest' (buf ++ [c_dot]) true all_dots
            else if y =? c_f then d2m_loop rest' (buf ++ [c_slash]) false false
            else if y =? c_5 then d2m_loop rest' (buf ++ [c_pct]) false false
            else Err
        | _ => Err
        end
      else if ch =? c_dot then Err
      else d2m_loop rest (buf ++ [ch]) false false
  end.

(** convert.go:54-104 dirToMetric(buf[:0], dir).  (buf[:len(buf)-1] never
    underflows: all_dots implies something was appended.) *)
Definition dirToMetric (dir : list Z) : res (list Z) :=
  do r <- d2m_loop dir [] false false;
  let '(buf, all_dots) := r in
  if all_dots && (0 <? len dir) then Ok (firstn (length buf - 1) buf) else Ok buf.

(** strconv.AppendInt(buf, n, 10): decimal digits; [fuel] bounds the number of
    digits (20 suffice for int64). *)
Fixpoint digits (fuel : nat) (n : Z) (acc : list Z) : list Z :=
  match fuel with
  | O => acc
  | S f => let acc := (48 + n mod 10) :: acc in
           if n / 10 =? 0 then acc else digits f (n / 10) acc
  end.
Definition itoa (n : Z) : list Z :=
  if n <? 0 then 45 :: digits 20 (- n) [] else digits 20 n [].

(** strconv.ParseInt(s, 10, 0): optional sign, at least one digit, digits only,
    in int64 range *)
Fixpoint undigits (acc : Z) (l : list Z) : option Z :=
  match l with
  | [] => Some acc
  | c :: r => if (48 <=? c) && (c <=? 57) then undigits (acc * 10 + (c - 48)) r else None
  end.
Definition undigits1 (l : list Z) : option Z :=
  match l with [] => None | _ => undigits 0 l end.
Definition in_i64 (x : Z) : option Z :=
  if (- 2 ^ 63 <=? x) && (x <? 2 ^ 63) then Some x else None.
Definition parseInt (s : list Z) : option Z :=
  match s with
  | [] => None
  | c :: r =>
      if c =? 45 then match undigits1 r with Some v => in_i64 (- v) | None => None end
      else if c =? 43 then match undigits1 r with Some v => in_i64 v | None => None end
      else match undigits1 s with Some v => in_i64 v | None => None end
  end.

(** convert.go:108-119 metricToPath(buf, metric, num) *)
Definition metricToPath (buf metric : list Z) (num : Z) : list Z :=
  let buf := metricToDir buf metric in
  let buf := if 0 <? len buf then buf ++ [c_slash] else buf in
  buf ++ itoa num ++ s_data.

(** metric.go:46-61 metricFilenameAt(dir, index) *)
Definition metricFilenameAt (dir : list Z) (index : Z) : list Z :=
  let out := dir in
  let out := if (0 <? len out) && negb (at_ (len out - 1) out =? c_slash)
             then out ++ [c_slash] else out in
  out ++ itoa index ++ s_data.

(** strings.HasSuffix / bytes.HasSuffix *)
Definition hasSuffix (s suf : list Z) : bool :=
  (Nat.leb (length suf) (length s)) &&
  beqb (skipn (length s - length suf) s) suf.

(** metric.go:118-125: the file number of a directory entry, if it is one *)
Definition dataFileNumber (name : list Z) : option Z :=
  if hasSuffix name s_data then parseInt (firstn (length name - 5) name) else None.

(** metric.go:80-86 the directory of a metric under the database root *)
Definition metricDir (root name : list Z) : list Z :=
  let buf := root in
  let buf := if (0 <? len buf) && negb (at_ (len buf - 1) buf =? c_slash)
             then buf ++ [c_slash] else buf in
  metricToDir buf name.
