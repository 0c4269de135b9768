(** Model of database/files/file_cache.go with handles numbered in the order in
    which they are opened, and a log of the Close calls.  Each operation is one
    critical section of fch.mu plus the opening/closing of the handle it deals
    with, which no other goroutine knows; so sequences of operations are all
    schedules of concurrent callers. *)
From Coq Require Import ZArith List Bool.
From Verif Require Import Base Maps Cache CacheProofs.
Import ListNotations.
Open Scope Z_scope.

(** file_cache.go:26-32, plus the history: [fc_opened] the path each handle was
    opened for, [fc_out] the handles given to callers and not yet released,
    [fc_closed] the handles on which Close was called *)
Record fcache := FC {
  fc_toks : list (list Z * Z);
  fc_ch : cache Z;
  fc_opened : list (list Z);
  fc_out : list Z;
  fc_closed : list Z
}.

(** file_cache.go:35-42 newFileCache *)
Definition fc_new (handles : Z) (rand : stream) : fcache := FC [] (newCache handles rand) [] [] [].

Inductive fop :=
| FAcquire (path : list Z) (opens : bool)  (* opens: whether openFile/createFile would succeed *)
| FRelease (path : list Z) (h : Z)
| FEvict (path : list Z)
| FClose.

Definition fc_step (o : fop) (st : fcache) : fcache * option Z :=
  match o with
  | FAcquire path opens =>
      (* file_cache.go:68-87 acquireFile *)
      let '(c, hit) :=
        match mget beqb path (fc_toks st) with
        | None => (fc_ch st, None)
        | Some tok => cache_take 0 (fc_ch st) tok
        end in
      match hit with
      | Some h => (FC (fc_toks st) c (fc_opened st) (h :: fc_out st) (fc_closed st), Some h)
      | None =>
          if opens then
            let h := len (fc_opened st) in
            (FC (fc_toks st) c (fc_opened st ++ [path]) (h :: fc_out st) (fc_closed st), Some h)
          else (FC (fc_toks st) c (fc_opened st) (fc_out st) (fc_closed st), None)
      end
  | FRelease path h =>
      (* file_cache.go:56-66 releaseFile *)
      let '(c, tok, ev) := cache_put 0 (fc_ch st) h in
      (FC (mput beqb path tok (fc_toks st)) c (fc_opened st) (remove Z.eq_dec h (fc_out st))
          (match ev with Some e => [e] | None => [] end ++ fc_closed st), None)
  | FEvict path =>
      (* file_cache.go:89-105 evictFile *)
      match mget beqb path (fc_toks st) with
      | None => (st, None)
      | Some tok =>
          let '(c, r) := cache_take 0 (fc_ch st) tok in
          (FC (mdel beqb path (fc_toks st)) c (fc_opened st) (fc_out st)
              (match r with Some e => [e] | None => [] end ++ fc_closed st), None)
      end
  | FClose =>
      (* file_cache.go:45-54 Close *)
      let '(c, l) := cache_take_all 0 (fc_ch st) in
      (FC [] c (fc_opened st) (fc_out st) (l ++ fc_closed st), None)
  end.

Definition fc_run (ops : list fop) (st : fcache) : fcache :=
  fold_left (fun st o => fst (fc_step o st)) ops st.

(** callers release only handles they hold, under the path they acquired them for *)
Fixpoint fc_ok (ops : list fop) (st : fcache) : Prop :=
  match ops with
  | [] => True
  | o :: ops =>
      match o with
      | FRelease path h => In h (fc_out st) /\ nth_error (fc_opened st) (Z.to_nat h) = Some path
      | _ => True
      end /\ fc_ok ops (fst (fc_step o st))
  end.
