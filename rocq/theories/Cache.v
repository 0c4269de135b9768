(** Model of database/files/cache.go, database/files/common.go and
    internal/pcg/pcg.go. *)
From Coq Require Import ZArith List Bool.
From Verif Require Import Base Maps.
Import ListNotations.
Open Scope Z_scope.

(** common.go:7-9 fastMod(n uint32, m int): the multiplication is on uint64 *)
Definition fastMod (n m : Z) : Z := i64 (u64 (n * u64 m) / 2 ^ 32).

(** pcg.go:5-8 type PCG, 11 mul *)
Record pcg := PCG { p_state : Z; p_inc : Z }.
Definition pcg_mul : Z := 6364136223846793005.

(** pcg.go:13-29 New *)
Definition pcg_new (state inc : Z) : pcg :=
  let inc := Z.lor (u64 (inc * 2)) 1 in
  PCG (u64 (u64 (u64 (inc + state) * pcg_mul) + inc)) inc.

(** pcg.go:31-46 Uint32: the output and the new generator *)
Definition pcg_uint32 (p : pcg) : Z * pcg :=
  let p := if p_inc p =? 0 then pcg_new 0 0 else p in
  let old := p_state p in
  let st := u64 (u64 (old * pcg_mul) + p_inc p) in
  let xorshifted := u32 (Z.lxor (old / 2 ^ 18) old / 2 ^ 27) in
  let rot := u32 (old / 2 ^ 59) in
  (Z.lor (xorshifted / 2 ^ rot) (u32 (xorshifted * 2 ^ (Z.land (u32 (- rot)) 31))),
   PCG st (p_inc p)).

(** the random source of a cache: an arbitrary stream of 32-bit numbers.  The
    program's stream is that of [pcg_new 0 0] (cache.go:44). *)
Definition stream := nat -> Z.
Fixpoint pcg_stream (p : pcg) (n : nat) : Z :=
  match n with
  | O => fst (pcg_uint32 p)
  | S k => pcg_stream (snd (pcg_uint32 p)) k
  end.

(** cache.go:22-26 type cacheEntry *)
Record entry (F : Type) := Entry { e_loc : Z; e_tok : Z; e_f : F }.
Arguments Entry {F}. Arguments e_loc {F}. Arguments e_tok {F}. Arguments e_f {F}.

(** cache.go:30-36 type cache.  [c_cap] is both the field cap and the capacity
    of the slice order, which are equal (cache.go:39-46; append never grows the
    slice past its capacity, l.98). *)
Record cache (F : Type) := Cache {
  c_tok : Z;
  c_cap : Z;
  c_order : list Z;
  c_handles : list (Z * entry F);
  c_rand : stream
}.
Arguments Cache {F}. Arguments c_tok {F}. Arguments c_cap {F}.
Arguments c_order {F}. Arguments c_handles {F}. Arguments c_rand {F}.

(** cache.go:39-46 newCache *)
Definition newCache {F} (cap : Z) (rand : stream) : cache F := Cache 0 cap [] [] rand.

Fixpoint set_nth {A} (n : nat) (x : A) (l : list A) : list A :=
  match l, n with
  | [], _ => []
  | _ :: t, O => x :: t
  | h :: t, S k => h :: set_nth k x t
  end.

(** the lookup c.handles[tok] without ok: the zero entry when missing *)
Definition entry_at {F} (z : F) (c : cache F) (tok : Z) : entry F :=
  match mget Z.eqb tok (c_handles c) with Some e => e | None => Entry 0 0 z end.

(** cache.go:67-84 Take; [z] is the zero value of the file type *)
Definition cache_take {F} (z : F) (c : cache F) (tok : Z) : cache F * option F :=
  match mget Z.eqb tok (c_handles c) with
  | None => (c, None)
  | Some e =>
      let n := (length (c_order c) - 1)%nat in
      let last := entry_at z c (nth n (c_order c) 0) in
      let last' := Entry (e_loc e) (e_tok last) (e_f last) in
      let order := set_nth (Z.to_nat (e_loc e)) (e_tok last) (c_order c) in
      let handles := mput Z.eqb (e_tok last) last' (c_handles c) in
      let handles := mdel Z.eqb (e_tok e) handles in
      (Cache (c_tok c) (c_cap c) (firstn n order) handles (c_rand c), Some (e_f e))
  end.

(** cache.go:89-120 Put: the token and the evicted file, if any *)
Definition cache_put {F} (z : F) (c : cache F) (f : F) : cache F * Z * option F :=
  let tok := c_tok c + 1 in
  if len (c_order c) <? c_cap c then
    (Cache tok (c_cap c) (c_order c ++ [tok])
       (mput Z.eqb tok (Entry (len (c_order c)) tok f) (c_handles c)) (c_rand c),
     tok, None)
  else if c_cap c =? 0 then
    (Cache tok (c_cap c) (c_order c) (c_handles c) (c_rand c), tok, Some f)
  else
    let loc := fastMod (c_rand c 0%nat) (c_cap c) in
    let current := entry_at z c (nth (Z.to_nat loc) (c_order c) 0) in
    let handles := mdel Z.eqb (e_tok current) (c_handles c) in
    let handles := mput Z.eqb tok (Entry loc tok f) handles in
    (Cache tok (c_cap c) (set_nth (Z.to_nat (e_loc current)) tok (c_order c)) handles
       (fun n => c_rand c (S n)),
     tok, Some (e_f current)).

(** cache.go:49-63 TakeAll with a callback that always returns true: the files
    handed to it, in order *)
Definition cache_take_all {F} (z : F) (c : cache F) : cache F * list F :=
  (Cache (c_tok c) (c_cap c) [] 
     (fold_left (fun hs tok => mdel Z.eqb tok hs) (rev (c_order c)) (c_handles c))
     (c_rand c),
   map (fun tok => e_f (entry_at z c tok)) (rev (c_order c))).
