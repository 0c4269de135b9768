(** The format of a stored record, written down independently of the model (C90):
    its layout, and the checksum as a polynomial division. *)
From Coq Require Import ZArith List Bool.
From Verif Require Import Metric.
Import ListNotations.
Open Scope Z_scope.

(** Polynomials over GF(2): bit k of the number is the coefficient of x^k.  The
    sum is Z.lxor, the product with x is doubling. *)
Fixpoint clmul_pos (a : positive) (b : Z) : Z :=
  match a with
  | xH => b
  | xO a => 2 * clmul_pos a b
  | xI a => Z.lxor b (2 * clmul_pos a b)
  end.
Definition clmul (a b : Z) : Z := match a with Zpos a => clmul_pos a b | _ => 0 end.
Definition of_exponents (l : list Z) : Z := fold_right (fun k p => Z.lxor (2 ^ k) p) 0 l.
(** the polynomial of CRC-32C (RFC 3385) *)
Definition castagnoli : Z := of_exponents [32; 28; 27; 26; 25; 23; 22; 20; 19; 18; 14; 13; 11; 10; 9; 8; 6; 0].

(** the polynomial with these coefficients, that of the highest power first *)
Definition poly_of (l : list bool) : Z := fold_left (fun p b => 2 * p + Z.b2z b) l 0.
(** the bits of a byte, and of a string, as CRC-32C takes them: the lowest bit of
    the first byte is the coefficient of the highest power *)
Definition byte_bits (b : Z) : list bool := map (Z.testbit b) [0; 1; 2; 3; 4; 5; 6; 7].
Definition word_bits (c : Z) : list bool := map (fun k => Z.testbit c (Z.of_nat k)) (seq 0 32).

(** CRC-32C: complement the first 32 bits of the message followed by 32 zeros,
    divide by the polynomial, complement the remainder. *)
Definition is_crc32c (s : list Z) (c : Z) : Prop :=
  0 <= c < 2 ^ 32 /\
  exists quotient remainder, 0 <= quotient /\ 0 <= remainder < 2 ^ 32 /\
    Z.lxor (poly_of (flat_map byte_bits s) * 2 ^ 32) ((2 ^ 32 - 1) * 2 ^ (8 * Z.of_nat (length s)))
      = Z.lxor (clmul quotient castagnoli) remainder /\
    poly_of (word_bits c) = 2 ^ 32 - 1 - remainder.

(** the n bytes of a number, the highest first *)
Definition big_endian (n : nat) (v : Z) : list Z := map (fun k => v / 256 ^ Z.of_nat (n - 1 - k) mod 256) (seq 0 n).
(** A stored record: version 1, kind, start and end (two's complement), the length
    of the data, the CRC-32C of all that and the data, the data. *)
Definition is_stored (kind start end_ : Z) (data : list Z) (s : list Z) : Prop :=
  exists c, let header := [1; kind] ++ big_endian 8 (start mod 2 ^ 64) ++ big_endian 8 (end_ mod 2 ^ 64) ++ big_endian 2 (Z.of_nat (length data)) in
    is_crc32c (header ++ data) c /\ s = header ++ big_endian 4 c ++ data.

(** The pieces of a value in records of [size] bytes (24 of them header): kind 2
    for a value in one piece, otherwise 3, then any number of 4, then 5. *)
Definition piece : Type := Z * list Z.   (* kind, data *)
Definition pieces_of (size : Z) (v : value) (l : list piece) : Prop :=
  concat (map snd l) = v_data v /\ (forall p, In p l -> 24 + Z.of_nat (length (snd p)) <= size) /\
  (map fst l = [2] \/ exists n, map fst l = [3] ++ repeat 4 n ++ [5]).
(** the n-th block of [size] bytes *)
Definition block (size n : Z) (s : list Z) : list Z := firstn (Z.to_nat size) (skipn (Z.to_nat (n * size)) s).
(** A data file with room for [cap] records of [size] bytes, which holds the values
    [vals], the newest first: the metadata, then unused records, which start with a
    zero, then the pieces of the values. *)
Definition data_file (size cap : Z) (vals : list value) (s : list Z) : Prop :=
  Z.of_nat (length s) = (1 + cap) * size /\
  exists free pieces, Forall2 (pieces_of size) vals pieces /\
    free + Z.of_nat (length (concat pieces)) = cap /\
    (forall n, 0 <= n < free -> hd 0 (block size (1 + n) s) = 0) /\
    (forall n v p, nth_error (flat_map (fun x => map (pair (fst x)) (snd x)) (combine vals pieces)) n = Some (v, p) ->
       exists t rest, block size (1 + free + Z.of_nat n) s = t ++ rest /\ is_stored (fst p) (v_start v) (v_end v) (snd p) t).
