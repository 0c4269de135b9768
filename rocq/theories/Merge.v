(** Model of merge/merge.go, merge/resample.go and merge/merger.go.

    The t-digest library is a black box: [tp_valid] tells whether a serialized
    distribution can be read and merged, [tp_marshal] (arbitrary) gives the
    bytes of the merge of a list of serialized distributions, in order.  Floats
    are bits (Float.v), computed rates are [spec_float]. *)
From Coq Require Import ZArith List Bool.
From Coq Require Import Floats.SpecFloat.
From Verif Require Import Base Pb PbRecord Float.
Import ListNotations.
Open Scope Z_scope.

(** dist/tdigest/wrapper.go:12-35 Params, and the digest operations used *)
Record tparams := TParams {
  tp_new : bool;                          (* Compression <> 0: New succeeds *)
  tp_valid : list Z -> bool;              (* tdigest.FromBytes and Merge succeed *)
  tp_marshal : list (list Z) -> list Z    (* Marshal of the merge *)
}.

(** the string "tdigest" *)
Definition s_tdigest : list Z := [116; 100; 105; 103; 101; 115; 116].

(** resample.go:35-46 Sample *)
Definition sample (p : tparams) (dig : list (list Z)) (r : drecord) : res (list (list Z)) :=
  if beqb (d_kind r) s_tdigest
  then (if tp_valid p (d_dist r) then Ok (dig ++ [d_dist r]) else Err)
  else Err.
(** merge.go:60-65 *)
Fixpoint sample_all (p : tparams) (dig : list (list Z)) (l : list drecord) : res (list (list Z)) :=
  match l with
  | [] => Ok dig
  | r :: l => do dig' <- sample p dig r; sample_all p dig' l
  end.

(** merge.go:34-43 start and end time *)
Definition merge_start (l : list drecord) (s : Z) : Z := fold_left (fun s r => if d_start r <? s then d_start r else s) l s.
Definition merge_end (l : list drecord) (e : Z) : Z := fold_left (fun e r => if e <? d_end r then d_end r else e) l e.
(** merge.go:46-48 *)
Definition merge_obs (l : list drecord) : Z := fold_left (fun n r => i64 (n + d_obs r)) l 0.
(** merge.go:74-82 *)
Definition merge_min (l : list drecord) (m : Z * list Z) : Z * list Z :=
  fold_left (fun m r => if flt (d_min r) (fst m) then (d_min r, d_minid r) else m) l m.
Definition merge_max (l : list drecord) (m : Z * list Z) : Z * list Z :=
  fold_left (fun m r => if flt (fst m) (d_max r) then (d_max r, d_maxid r) else m) l m.
(** merge.go:86-93 *)
Definition merge_merged (l : list drecord) : Z :=
  fold_left (fun n r => i64 (n + (if d_merged r =? 0 then 1 else d_merged r))) l 0.

(** merge.go:28-96 Merge *)
Definition merge (p : tparams) (l : list drecord) : res drecord :=
  match l with
  | [] => Err
  | r0 :: rest =>
      if negb (tp_new p) then Err
      else
        do dig <- sample_all p [] l;
        let mn := merge_min rest (d_min r0, []) in     (* the ids of the first record are not copied *)
        let mx := merge_max rest (d_max r0, []) in
        Ok (DRec (merge_start rest (d_start r0)) (merge_end rest (d_end r0)) (merge_obs l)
              (tp_marshal p dig) s_tdigest (fst mn) (fst mx) (snd mn) (snd mx) (merge_merged l))
  end.

(* ------------------------------------------------------------------ *)
(** ** merger.go *)

(** merger.go:28-31 mergeRecord *)
Record mrecord := MRec { mr_rec : drecord; mr_start : Z; mr_end : Z }.

(** merger.go:34-39 MergerOptions ([Samples] is in [mo_sample]).  [mo_sample] is
    the black box load.Load followed by the Samples+1 quantile queries of
    merger.go:218-242 ([None]: the distribution cannot be loaded). *)
Record moptions := MOpts {
  mo_now : Z;
  mo_duration : Z;
  mo_params : tparams;
  mo_sample : drecord -> option (list Z)
}.

(** draw/common.go:18-25 Column *)
Record column := Col { col_x : Z; col_w : Z; col_data : list Z; col_rate : spec_float }.

(** merger.go:44-52 Merger *)
Record merger := Merger {
  mg_opts : moptions;
  mg_pixel : Z;
  mg_width : Z;
  mg_completed : Z;
  mg_records : list mrecord;
  mg_columns : list column
}.

(** merger.go:55-59 NewMerger *)
Definition mg_new (o : moptions) : merger := Merger o 0 0 0 [] [].

(** merger.go:63-67 SetWidth (an integer division by zero panics) *)
Definition mg_set_width (w : Z) (m : merger) : res merger :=
  if w =? 0 then Panic
  else Ok (Merger (mg_opts m) (i64 (Z.quot (mo_duration (mg_opts m)) w)) w w (mg_records m) (mg_columns m)).

(** merger.go:70-77 timeToPixel *)
Definition time_to_pixel (m : merger) (t : Z) : res Z :=
  let delta := i64 (mo_now (mg_opts m) - t + mg_pixel m - 1) in
  if mg_pixel m =? 0 then Panic
  else
    let px := i64 (mg_width m - i64 (Z.quot delta (mg_pixel m))) in
    Ok (if px <? 0 then 0 else px).

(** float64(n) for an int64 *)
Definition f_of_int (n : Z) : spec_float := binary_normalize 53 1024 n 0 false.
Definition f_add := SFadd 53 1024.
Definition f_div := SFdiv 53 1024.
(** time.Duration(n).Seconds() *)
Definition f_seconds (n : Z) : spec_float :=
  f_add (f_of_int (Z.quot n 1000000000)) (f_div (f_of_int (Z.rem n 1000000000)) (f_of_int 1000000000)).
(** merger.go:205-212 the rate of a column *)
Definition col_obs_sec (l : list mrecord) : spec_float :=
  f_div (fold_left (fun z mr =>
           let r := mr_rec mr in
           f_add z (f_div (f_div (f_of_int (d_obs r)) (f_of_int (d_merged r)))
                          (f_seconds (i64 (d_end r - d_start r)))))
         l (S754_zero false))
        (f_of_int (Z.of_nat (length l))).

(** merger.go:199-246 emit: the column for pixels [start..end] of the records *)
Definition emit (o : moptions) (start finish : Z) (l : list mrecord) : res column :=
  do out <- merge (mo_params o) (map mr_rec l);
  match mo_sample o out with
  | None => Err
  | Some data => Ok (Col start (finish - start + 1) data (col_obs_sec l))
  end.

(** merger.go:124-130 the records (their indexes) covering a pixel *)
Definition covers (px : Z) (mr : mrecord) : bool := (mr_start mr <=? px) && (px <=? mr_end mr).
Fixpoint candidates (px : Z) (i : nat) (l : list mrecord) : list nat :=
  match l with
  | [] => []
  | mr :: l => if covers px mr then i :: candidates px (S i) l else candidates px (S i) l
  end.
(** merger.go:249-259 intsEq *)
Fixpoint ints_eq (a b : list nat) : bool :=
  match a, b with
  | [], [] => true
  | x :: a, y :: b => Nat.eqb x y && ints_eq a b
  | _, _ => false
  end.
(** merger.go:139-141 the records with the given indexes *)
Definition pick (l : list mrecord) (ix : list nat) : list mrecord :=
  flat_map (fun i => match nth_error l i with Some mr => [mr] | None => [] end) ix.

(** merger.go:123-152 the loop: [n] pixels are left, the next is [px] *)
Fixpoint completed_loop (o : moptions) (recs : list mrecord) (n : nat) (px : Z)
  (to_emit : list nat) (to_end : Z) (cols : list column) : res (list nat * Z * list column) :=
  match n with
  | O => Ok (to_emit, to_end, cols)
  | S n =>
      let cand := candidates px 0 recs in
      if ints_eq cand to_emit then completed_loop o recs n (px - 1) to_emit to_end cols
      else match to_emit with
           | [] => completed_loop o recs n (px - 1) cand px cols
           | _ => do c <- emit o (px + 1) to_end (pick recs to_emit);
                  completed_loop o recs n (px - 1) cand px (cols ++ [c])
           end
  end.

(** merger.go:111-194 completed *)
Definition completed (px : Z) (m : merger) : res merger :=
  do r <- completed_loop (mg_opts m) (mg_records m) (Z.to_nat (mg_completed m - px)) (mg_completed m - 1) [] 0 (mg_columns m);
  let '(to_emit, to_end, cols) := r in
  do cols <- match to_emit with
             | [] => Ok cols
             | _ => do c <- emit (mg_opts m) px to_end (pick (mg_records m) to_emit); Ok (cols ++ [c])
             end;
  (* merger.go:167-191 prune *)
  let keep := filter (fun mr => negb ((px <? mr_start mr) && (px <? mr_end mr))) (mg_records m) in
  Ok (Merger (mg_opts m) (mg_pixel m) (mg_width m) px keep cols).

(** merger.go:81-97 Push *)
Definition mg_push (r : drecord) (m : merger) : res merger :=
  if mg_width m =? 0 then Err
  else
    do s <- time_to_pixel m (d_start r);
    do e <- time_to_pixel m (d_end r);
    do m <- completed (e + 1) m;
    Ok (Merger (mg_opts m) (mg_pixel m) (mg_width m) (mg_completed m) (mg_records m ++ [MRec r s e]) (mg_columns m)).

(** merger.go:100-105 Finish *)
Definition mg_finish (m : merger) : res (list column) :=
  do m <- completed 0 m; Ok (mg_columns m).

(** Push for each record in turn *)
Fixpoint mg_pushes (l : list drecord) (m : merger) : res merger :=
  match l with
  | [] => Ok m
  | r :: l => do m' <- mg_push r m; mg_pushes l m'
  end.
(** api/server.go:186-240 the columns of a graph of width [w]: SetWidth, then
    Push of every record, then Finish *)
Definition mg_render (o : moptions) (w : Z) (l : list drecord) : res (list column) :=
  do m <- mg_set_width w (mg_new o);
  do m <- mg_pushes l m;
  mg_finish m.
