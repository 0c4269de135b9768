(** Specification for C49: what stands at a path of a decoded value. *)
From Coq Require Import ZArith List Bool.
From Verif Require Import Base Maps Typeassert.
Import ListNotations.
Open Scope Z_scope.

(** [stands x p y]: following [p] from [x] leads to [y]; what is missing (an
    absent key of a map, anything below a nil) is nil *)
Inductive stands : value -> list step -> value -> Prop :=
| here x : stands x [] x
| present m k v p y : mget beqb k m = Some v -> stands v p y -> stands (VMap m) (Key k :: p) y
| absent m k p y : mget beqb k m = None -> stands VNil p y -> stands (VMap m) (Key k :: p) y
| below_nil s p y : stands VNil p y -> stands VNil (s :: p) y
| element l n v p y : 0 <= n -> nth_error l (Z.to_nat n) = Some v -> stands v p y -> stands (VList l) (Idx n :: p) y.

(** no list of [x] is asked for a negative index along [p] *)
Definition no_negative (p : list step) : Prop := forall n, In (Idx n) p -> 0 <= n.

(** reading [y] as a type whose values [is] recognises: nil reads as zero *)
Definition fits {A} (is : value -> A -> Prop) (zero : A) (y : value) (v : A) : Prop :=
  (y = VNil /\ v = zero) \/ is y v.

Definition is_int y (n : Z) := y = VInt n.
Definition is_int64 y (n : Z) := y = VInt64 n.
Definition is_str y (s : list Z) := y = VStr s.
Definition is_bool y (b : bool) := y = VBool b.
Definition is_float y (f : Z) := y = VFloat f.

(** the value at [p] is present with the right type, or absent and then zero *)
Definition reads {A} (is : value -> A -> Prop) (zero : A) (x : value) (p : list step) (v : A) : Prop :=
  exists y, stands x p y /\ fits is zero y v.

(** the five getters, with the values they recognise and their zero *)
Inductive getter : forall A, (value -> A -> Prop) -> A -> (asserter -> option aerr -> A * option aerr) -> Prop :=
| g_int : getter Z is_int 0 aInt
| g_int64 : getter Z is_int64 0 aInt64
| g_str : getter (list Z) is_str [] aStr
| g_bool : getter bool is_bool false aBool
| g_float : getter Z is_float 0 aFloat.
Arguments getter {A}.

(** [y] has the dynamic type [t] *)
Definition of_type (t : ty) (y : value) : Prop :=
  match t with
  | TInt => exists n, y = VInt n
  | TInt64 => exists n, y = VInt64 n
  | TStr => exists s, y = VStr s
  | TBool => exists b, y = VBool b
  | TFloat => exists f, y = VFloat f
  | TMap => exists m, y = VMap m
  | TList => exists l, y = VList l
  end.
