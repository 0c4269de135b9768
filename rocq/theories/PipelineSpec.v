(** What a user who sends lines to the listener expects to find in the database:
    specification of the path from the lines to the answers of queries, from the
    events alone. *)
From Coq Require Import ZArith List Bool.
From Verif Require Import Base PbRecord Agg Writer WriterSpec GraphiteSpec.
Import ListNotations.
Open Scope Z_scope.

(** a connection sent these lines (the i-th was handled at [clock i]); a dump was
    made at [now]; the process ended and a new one was started *)
Inductive event :=
| Connection (clock : nat -> Z) (lines : list (list Z * bool))
| Dumped (now : Z)
| Restarted.

(** a period of one metric: from, to, and the values received in it *)
Record window := Window { win_start : Z; win_end : Z; win_log : list (Z * list Z) }.

(** [told parse m events b log ws]: after the events (newest first) the current
    period of metric [m] began at [b] and has the values [log] so far; its finished
    periods that have values are [ws], newest first.  A restart loses what is not
    dumped. *)
Inductive told (parse : list Z -> option Z) (m : list Z) : list event -> option Z -> list (Z * list Z) -> list window -> Prop :=
| told_nothing : told parse m [] None [] []
| told_lines ev b log ws clock lines adds : told parse m ev b log ws -> asked parse clock 0 (map fst lines) adds ->
    told parse m (Connection clock lines :: ev) (fold_left boundary_add adds b) (fold_left (pending_add m) adds log) ws
| told_empty ev b ws now : told parse m ev b [] ws ->
    told parse m (Dumped now :: ev) (option_map (fun _ => now) b) [] ws
| told_dump ev b x log ws now : told parse m ev (Some b) (x :: log) ws ->
    told parse m (Dumped now :: ev) (Some now) [] (Window b now (x :: log) :: ws)
| told_restart ev b log ws : told parse m ev b log ws -> told parse m (Restarted :: ev) None [] ws.

(** the record decoded from the database is [r], but a zero may have lost its sign *)
Definition zero_bits (v : Z) : Prop := v = 0 \/ v = 2 ^ 63.
Definition same_number (a b : Z) : Prop := a = b \/ zero_bits a /\ zero_bits b.
Definition same_record (a r : drecord) : Prop :=
  d_start a = d_start r /\ d_end a = d_end r /\ d_obs a = d_obs r /\ d_dist a = d_dist r /\ d_kind a = d_kind r /\
  same_number (d_min a) (d_min r) /\ same_number (d_max a) (d_max r) /\ d_minid a = d_minid r /\ d_maxid a = d_maxid r /\
  d_merged a = d_merged r.
(** the stored bytes tell about the period: its bounds, how many values, a smallest
    and a largest one, and the distribution of exactly these values *)
Definition tells (p : params) (w : window) (bytes : list Z) : Prop :=
  exists a r, drec_unmarshal bytes = Ok a /\ same_record a r /\ describes p (win_start w) (win_end w) (win_log w) r.

(** ** events the theorem is about *)
(** the lines are lines, clocks are int64 *)
Definition event_ok (e : event) : Prop :=
  match e with
  | Connection clock lines => Forall (fun l => proper_line (fst l)) lines /\ forall i, is_i64 (clock i)
  | Dumped now => is_i64 now /\ now <> 0
  | Restarted => True
  end.
(** every dump is later than the dumps before it *)
Fixpoint dumps_before (ev : list event) (t : Z) : Prop :=
  match ev with
  | [] => True
  | Dumped now :: ev => now < t /\ dumps_before ev t
  | _ :: ev => dumps_before ev t
  end.
Fixpoint dumps_increase (ev : list event) : Prop :=
  match ev with
  | [] => True
  | Dumped now :: ev => dumps_before ev now /\ dumps_increase ev
  | _ :: ev => dumps_increase ev
  end.
Fixpoint lines_of (ev : list event) : Z :=
  match ev with
  | [] => 0
  | Connection _ lines :: ev => Z.of_nat (length lines) + lines_of ev
  | _ :: ev => 1 + lines_of ev
  end.
(** a record of values from lines always takes fewer than [cap] slots of [size] bytes:
    the serialized distributions are small enough *)
Definition roomy (p : params) (size cap : Z) : Prop :=
  is_bytes (p_kind p) /\
  forall vs, is_bytes (p_marshal p vs) /\ len (p_marshal p vs) + len (p_kind p) + 84 <= (cap - 1) * (size - 24).
(** a value of the database is the period's record *)
