(** Model of api/query: glob.go, spec.go and search.go. *)
From Coq Require Import ZArith List Bool Lia.
From Verif Require Import Base.
Import ListNotations.
Open Scope Z_scope.

Definition ch_star : Z := 42.
Definition ch_quest : Z := 63.
Definition ch_dot : Z := 46.

(** glob.go:18-20, spec.go:43-45: ascii lower case *)
Definition lower (c : Z) : Z := if (65 <=? c) && (c <=? 90) then c + 32 else c.

(** glob.go:9-49 glob.  [px], [nx] and the two backtracking indexes are the
    variables of the Go function; [fuel] bounds the iterations ([Diverge] when
    it runs out, which GlobProofs shows never happens with the fuel of [glob]). *)
Fixpoint glob_loop (pat name : list Z) (fuel : nat) (px nx npx nnx : nat) : res bool :=
  match fuel with
  | O => Diverge
  | S fuel =>
      match nth_error pat px with
      | None => Ok true                                   (* px >= len(pattern) *)
      | Some c =>
          match nth_error name nx with
          | None => Ok false                              (* nx >= len(name) *)
          | Some n =>
              let back := if Nat.ltb 0 nnx && Nat.ltb nnx (length name)
                          then glob_loop pat name fuel npx nnx npx nnx
                          else Ok false in
              if c =? ch_quest then glob_loop pat name fuel (S px) (S nx) npx nnx
              else if c =? ch_star then glob_loop pat name fuel (S px) nx px (S nx)
              else if lower n =? c then glob_loop pat name fuel (S px) (S nx) npx nnx
              else back
          end
      end
  end.
Definition glob_fuel (pat name : list Z) : nat := ((length name + 2) * (length pat + 1) + 1)%nat.
Definition glob (pat name : list Z) : res bool := glob_loop pat name (glob_fuel pat name) 0 0 0 0.

(** spec.go:36-52 globify *)
Definition globify (part : list Z) : list Z := ch_star :: map lower part.

(** strings.Split(s, ".") *)
Fixpoint split_on (d : Z) (cur s : list Z) : list (list Z) :=
  match s with
  | [] => [rev cur]
  | c :: s => if c =? d then rev cur :: split_on d [] s else split_on d (c :: cur) s
  end.
(** spec.go:21-30 newSpec *)
Definition new_spec (s : list Z) : list (list Z) := map globify (split_on ch_dot [] s).

(** strings.IndexByte *)
Fixpoint index_byte (d : Z) (s : list Z) : option nat :=
  match s with
  | [] => None
  | c :: s => if c =? d then Some 0%nat else option_map S (index_byte d s)
  end.
(** spec.go:78-84 splitMetric *)
Definition split_metric (m : list Z) : list Z * list Z :=
  match index_byte ch_dot m with
  | None => (m, [])
  | Some i => (firstn i m, skipn (S i) m)
  end.

(** spec.go:66-71 the inner loop; [part] is matched by the next glob *)
Fixpoint globs_match (gs : list (list Z)) (part tail : list Z) : res bool :=
  match gs with
  | [] => Ok true
  | g :: gs =>
      do b <- glob g part;
      if b then let '(p, t) := split_metric tail in globs_match gs p t
      else Ok false
  end.
(** spec.go:55-76 Match; [fuel] bounds the number of components *)
Fixpoint spec_loop (fuel : nat) (gs : list (list Z)) (m : list Z) : res bool :=
  match fuel with
  | O => Diverge
  | S fuel =>
      match m with
      | [] => Ok false
      | _ =>
          let '(part, rest) := split_metric m in
          do b <- globs_match gs part rest;
          if b then Ok true else spec_loop fuel gs rest
      end
  end.
Definition spec_match (gs : list (list Z)) (m : list Z) : res bool := spec_loop (S (length m)) gs m.

(** unicode.IsSpace at the head of a string: the number of bytes of the space
    there, 0 if none.  (strings.Fields decodes UTF-8; the encodings of the space
    characters start with a byte that no decoder consumes as part of another
    character, so looking for them at every position is the same.) *)
Definition space_len (s : list Z) : nat :=
  match s with
  | c :: s1 =>
      if (9 <=? c) && (c <=? 13) || (c =? 32) then 1%nat
      else match s1 with
           | d :: s2 =>
               if (c =? 0xC2) && ((d =? 0x85) || (d =? 0xA0)) then 2%nat
               else match s2 with
                    | e :: _ =>
                        if (c =? 0xE1) && (d =? 0x9A) && (e =? 0x80)
                           || (c =? 0xE2) && (d =? 0x80) && ((0x80 <=? e) && (e <=? 0x8A) || (e =? 0xA8) || (e =? 0xA9) || (e =? 0xAF))
                           || (c =? 0xE2) && (d =? 0x81) && (e =? 0x9F)
                           || (c =? 0xE3) && (d =? 0x80) && (e =? 0x80)
                        then 3%nat else 0%nat
                    | [] => 0%nat
                    end
           | [] => 0%nat
           end
  | [] => 0%nat
  end.
(** strings.Fields; [skip] bytes of a space character are left to skip *)
Fixpoint fields_ (skip : nat) (cur s : list Z) : list (list Z) :=
  let flush := match cur with [] => [] | _ => [rev cur] end in
  match s with
  | [] => flush
  | c :: s' =>
      match skip with
      | S k => fields_ k [] s'
      | O => match space_len s with
             | O => fields_ 0 (c :: cur) s'
             | S k => flush ++ fields_ k [] s'
             end
      end
  end.
Definition fields (s : list Z) : list (list Z) := fields_ 0 [] s.

(** search.go:10-13 Search: [se_cap] is the capacity of [matched] *)
Record search := Search { se_specs : list (list (list Z)); se_cap : Z; se_matched : list (list Z) }.
(** search.go:16-26 New: a negative capacity panics (make) *)
Definition search_new (q : list Z) (capacity : Z) : res search :=
  if capacity <? 0 then Panic else Ok (Search (map new_spec (fields q)) capacity []).
(** search.go:29-36 Match *)
Fixpoint specs_match (sp : list (list (list Z))) (m : list Z) : res bool :=
  match sp with
  | [] => Ok true
  | s :: sp => do b <- spec_match s m; if b then specs_match sp m else Ok false
  end.
(** search.go:39-48 Add: the new state and whether to go on *)
Definition search_add (name : list Z) (s : search) : res (bool * search) :=
  if len (se_matched s) =? se_cap s then Ok (false, s)
  else
    do b <- specs_match (se_specs s) name;
    if b then Ok (true, Search (se_specs s) (se_cap s) (se_matched s ++ [name]))
    else Ok (true, s).
(** database Metrics passes every name to Add until it returns false
    (types.go:46-48, files/db.go Metrics): the names passed, the last answer and
    the final state *)
Fixpoint search_run (names : list (list Z)) (s : search) : res (bool * search) :=
  match names with
  | [] => Ok (true, s)
  | n :: names => do r <- search_add n s; let '(go, s') := r in if go then search_run names s' else Ok (false, s')
  end.
