(** Model of /repo/internal/typeassert/asserter.go and of the three makers that
    use it: database/files/register.go, dist/tdigest/register.go,
    listener/graphite/register.go. *)
From Coq Require Import ZArith List Bool.
From Verif Require Import Base Maps.
Import ListNotations.
Open Scope Z_scope.

(** decoded data (interface{} as toml and json decoders build it): the dynamic
    types the package distinguishes, and every other type under a name.  A
    float64 is its 64 bits; a map is an association list (first match). *)
Inductive value : Type :=
| VNil
| VMap (m : list (list Z * value))
| VList (l : list value)
| VInt (n : Z)
| VInt64 (n : Z)
| VStr (s : list Z)
| VBool (b : bool)
| VFloat (bits : Z)
| VOther (type : list Z).

(** a step of the path text: "." + key (asserter.go:53) or "[%d]" (75) *)
Inductive step : Type :=
| Key (k : list Z)
| Idx (n : Z).

(** the types the getters ask for, and the map / list types I and N ask for *)
Inductive ty : Type := TInt | TInt64 | TStr | TBool | TFloat | TMap | TList.

(** the errors the package makes: "invalid type: T != %T at path" (with the
    offending value, from which %T is rendered; [TList] is the error of N, whose
    text, line 84, also names the map type) and
    "array out of bounds" (89) *)
Inductive aerr : Type :=
| EType (want : ty) (got : value) (path : list step)
| EBounds.

(** Asserter (asserter.go:12-16): the value and the path; the err pointer is
    shared by all the asserters made from one root, so it is the state threaded
    through the functions. *)
Record asserter := { ax : value; apath : list step }.

(** A (19-25); a (34-40) *)
Definition aroot (x : value) : asserter := {| ax := x; apath := [] |}.
Definition achild (a : asserter) (x : value) (p : step) : asserter :=
  {| ax := x; apath := apath a ++ [p] |}.

(** I (48-68); m[index] of a missing key is nil *)
Definition aI (k : list Z) (a : asserter) (e : option aerr) : asserter * option aerr :=
  match e with
  | Some _ => (a, e)
  | None =>
    match ax a with
    | VNil => (achild a VNil (Key k), None)
    | VMap m => (achild a (match mget beqb k m with Some v => v | None => VNil end) (Key k), None)
    | x => (a, Some (EType TMap x (apath a)))
    end
  end.

(** N (71-95); m[index] with a negative index panics *)
Definition aN (n : Z) (a : asserter) (e : option aerr) : res (asserter * option aerr) :=
  match e with
  | Some _ => Ok (a, e)
  | None =>
    match ax a with
    | VNil => Ok (achild a VNil (Idx n), None)
    | VList l =>
      if n >=? len l then Ok (a, Some EBounds)
      else if n <? 0 then Panic
      else Ok (achild a (nth (Z.to_nat n) l VNil) (Idx n), None)
    | x => Ok (a, Some (EType TList x (apath a)))
    end
  end.

(** Int, Int64, String, Bool, Float64 (98-152) *)
Definition aInt (a : asserter) (e : option aerr) : Z * option aerr :=
  match e, ax a with
  | Some _, _ => (0, e)
  | None, VNil => (0, None)
  | None, VInt n => (n, None)
  | None, x => (0, Some (EType TInt x (apath a)))
  end.
Definition aInt64 (a : asserter) (e : option aerr) : Z * option aerr :=
  match e, ax a with
  | Some _, _ => (0, e)
  | None, VNil => (0, None)
  | None, VInt64 n => (n, None)
  | None, x => (0, Some (EType TInt64 x (apath a)))
  end.
Definition aStr (a : asserter) (e : option aerr) : list Z * option aerr :=
  match e, ax a with
  | Some _, _ => ([], e)
  | None, VNil => ([], None)
  | None, VStr s => (s, None)
  | None, x => ([], Some (EType TStr x (apath a)))
  end.
Definition aBool (a : asserter) (e : option aerr) : bool * option aerr :=
  match e, ax a with
  | Some _, _ => (false, e)
  | None, VNil => (false, None)
  | None, VBool b => (b, None)
  | None, x => (false, Some (EType TBool x (apath a)))
  end.
Definition aFloat (a : asserter) (e : option aerr) : Z * option aerr :=
  match e, ax a with
  | Some _, _ => (0, e)
  | None, VNil => (0, None)
  | None, VFloat f => (f, None)
  | None, x => (0, Some (EType TFloat x (apath a)))
  end.

(** ** programs using one root: any calls on any asserters made so far.
    Handles are numbered in the order they are returned; handle 0 is the root. *)
Inductive call : Type :=
| CI (h : nat) (k : list Z)
| CN (h : nat) (n : Z)
| CInt (h : nat) | CInt64 (h : nat) | CStr (h : nat) | CBool (h : nat) | CFloat (h : nat)
| CV (h : nat).

(** what a getter returned *)
Inductive got : Type :=
| GHandle | GInt (n : Z) | GStr (s : list Z) | GBool (b : bool) | GVal (v : value).

Definition hstate := (list asserter * option aerr)%type.
Definition hstart (x : value) : hstate := ([aroot x], None).

Definition ad : asserter := aroot VNil.
Definition call1 (c : call) (s : hstate) : res (got * hstate) :=
  let (hs, e) := s in
  let h i := nth i hs ad in
  match c with
  | CI i k => let (a, e') := aI k (h i) e in Ok (GHandle, (hs ++ [a], e'))
  | CN i n => do r <- aN n (h i) e; Ok (GHandle, (hs ++ [fst r], snd r))
  | CInt i => let (v, e') := aInt (h i) e in Ok (GInt v, (hs, e'))
  | CInt64 i => let (v, e') := aInt64 (h i) e in Ok (GInt v, (hs, e'))
  | CStr i => let (v, e') := aStr (h i) e in Ok (GStr v, (hs, e'))
  | CBool i => let (v, e') := aBool (h i) e in Ok (GBool v, (hs, e'))
  | CFloat i => let (v, e') := aFloat (h i) e in Ok (GInt v, (hs, e'))
  | CV i => Ok (GVal (ax (h i)), s)
  end.

Fixpoint calls (l : list call) (s : hstate) : res (list got * hstate) :=
  match l with
  | [] => Ok ([], s)
  | c :: r => do x <- call1 c s; do y <- calls r (snd x); Ok (fst x :: fst y, snd y)
  end.

(** a chain a.I(..).N(..)... *)
Fixpoint walk (p : list step) (a : asserter) (e : option aerr) : res (asserter * option aerr) :=
  match p with
  | [] => Ok (a, e)
  | Key k :: r => let (a', e') := aI k a e in walk r a' e'
  | Idx n :: r => do x <- aN n a e; walk r (fst x) (snd x)
  end.

(** ** the makers *)
(** files.Options and Tuning, as passed to New (database/files/register.go:18-29) *)
Record fopts := { fo_size : Z; fo_cap : Z; fo_files : Z;
  fo_buffer : Z; fo_drop : bool; fo_handles : Z; fo_workers : Z }.

(** database/files/register.go:16-35: calls in source order; int(int64) is the
    identity on 64-bit platforms *)
Definition k_directory : list Z := [100;105;114;101;99;116;111;114;121].
Definition k_size : list Z := [115;105;122;101].
Definition k_cap : list Z := [99;97;112].
Definition k_files : list Z := [102;105;108;101;115].
Definition k_tuning : list Z := [116;117;110;105;110;103].
Definition k_buffer : list Z := [98;117;102;102;101;114].
Definition k_drop : list Z := [100;114;111;112].
Definition k_handles : list Z := [104;97;110;100;108;101;115].
Definition k_workers : list Z := [119;111;114;107;101;114;115].
Definition k_compression : list Z := [99;111;109;112;114;101;115;115;105;111;110].
Definition k_address : list Z := [97;100;100;114;101;115;115].

Definition files_maker (config : value) : res (list Z * fopts) :=
  let a := aroot config in
  let (a1, e) := aI k_directory a None in let (dir, e) := aStr a1 e in
  let (a2, e) := aI k_size a e in let (size, e) := aInt64 a2 e in
  let (a3, e) := aI k_cap a e in let (cap, e) := aInt64 a3 e in
  let (a4, e) := aI k_files a e in let (files, e) := aInt64 a4 e in
  let (b1, e) := aI k_tuning a e in let (b2, e) := aI k_buffer b1 e in let (buffer, e) := aInt64 b2 e in
  let (b3, e) := aI k_tuning a e in let (b4, e) := aI k_drop b3 e in let (drop, e) := aBool b4 e in
  let (b5, e) := aI k_tuning a e in let (b6, e) := aI k_handles b5 e in let (handles, e) := aInt64 b6 e in
  let (b7, e) := aI k_tuning a e in let (b8, e) := aI k_workers b7 e in let (workers, e) := aInt64 b8 e in
  match e with
  | Some _ => Err
  | None => Ok (dir, {| fo_size := size; fo_cap := cap; fo_files := files; fo_buffer := buffer;
                        fo_drop := drop; fo_handles := handles; fo_workers := workers |})
  end.

(** dist/tdigest/register.go:15-30: the compression as float64 bits *)
Definition tdigest_maker (config : value) : res Z :=
  match config with
  | VNil => Ok 0
  | _ =>
    let (a1, e) := aI k_compression (aroot config) None in
    let (c, e) := aFloat a1 e in
    match e with Some _ => Err | None => Ok c end
  end.

(** listener/graphite/register.go:15-24: the listen address *)
Definition graphite_maker (config : value) : res (list Z) :=
  let (a1, e) := aI k_address (aroot config) None in
  let (s, e) := aStr a1 e in
  match e with Some _ => Err | None => Ok s end.
