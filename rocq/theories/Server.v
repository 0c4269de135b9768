(** Model of api/server.go and api/common.go: routing, access control, the
    query and render endpoints.

    Black boxes: the database (what Query and Metrics pass to their callback),
    SHA-256, net/http's parsing (BasicAuth, FormValue), strconv.ParseFloat,
    time.ParseDuration, graph.Measure (the width of the heatmap), t-digests
    (Merge.v), the PNG drawing and encoding. *)
From Coq Require Import ZArith List Bool Ascii String.
From Coq Require Import Floats.SpecFloat.
From Verif Require Import Base Pb PbRecord Float Merge Query.
Import ListNotations.
Open Scope Z_scope.

(** the bytes of a string literal *)
Definition bytes_of (s : string) : list Z := map (fun c => Z.of_nat (nat_of_ascii c)) (list_ascii_of_string s).
Arguments bytes_of s%string.

(** api/server.go:31-40 Options *)
Record soptions := SOpts { so_origin : list Z; so_user : list Z; so_pass : list Z }.

(** the parameters of the measuring of a graph (server.go:168-176) *)
Record mparams := MParams { mp_now : Z; mp_dur : Z; mp_width : Z; mp_height : Z; mp_padding : Z }.

(** the world around a server *)
Record env := Env {
  e_query : list Z -> Z -> list (Z * Z * list Z) * bool;   (* what Query passes (start, end, data), newest first, and whether it then fails *)
  e_metrics : list (list Z) * bool;                        (* what Metrics passes, and whether it then fails *)
  e_static : option (list Z -> Z);                         (* the static handler: the status it answers for a path *)
  e_hash : list Z -> list Z;                               (* sha256 *)
  e_nonce : list Z;
  e_clock : Z;                                             (* time.Now() *)
  e_duration : list Z -> option Z;                         (* time.ParseDuration *)
  e_float : list Z -> option Z;                            (* strconv.ParseFloat, bits *)
  e_params : Z -> tparams;                                 (* the t-digest parameters of a compression *)
  e_load : drecord -> bool;                                (* load.Load succeeds *)
  e_sample : Z -> drecord -> option (list Z);              (* the samples of a distribution, see Merge.mo_sample *)
  e_measure : mparams -> option drecord -> res (option Z)  (* graph.Measure: the width of the heatmap *)
}.

(** an incoming request: the result of BasicAuth, and what the handlers read *)
Record request := Req {
  rq_auth : option (list Z * list Z);
  rq_method : list Z;
  rq_path : list Z;
  rq_form : list (list Z * list Z);
  rq_accept : list Z
}.
(** http.Request.FormValue: the first value, or "" *)
Fixpoint form_value (f : list (list Z * list Z)) (k : list Z) : list Z :=
  match f with
  | [] => []
  | (k', v) :: f => if beqb k' k then v else form_value f k
  end.

(** what a response shows *)
Inductive body :=
| BError                                      (* the error text *)
| BStatic                                     (* whatever the static handler wrote *)
| BNonce (n : list Z)
| BNames (l : list (list Z))
| BGraph (metric : list Z) (cols : list column) (earliest : option (list Z)) (p : mparams)
| BImage (cols : list column) (earliest : option (list Z)) (p : mparams).
Record response := Resp { rs_status : Z; rs_origin : list Z; rs_challenge : bool; rs_body : body }.

(** api/common.go:13-18 error classes; any other error is internal *)
Inductive serr := ENotFound | EMethod | EBadRequest | EUnauthorized | EInternal.
(** api/common.go:22-34 getStatusCode *)
Definition status_of (e : serr) : Z :=
  match e with ENotFound => 404 | EMethod => 405 | EBadRequest => 400 | EUnauthorized => 401 | EInternal => 500 end.

(** strconv.ParseInt(x, 10, 64) when it succeeds *)
Fixpoint digits_ (acc : Z) (s : list Z) : option Z :=
  match s with
  | [] => Some acc
  | c :: s => if (48 <=? c) && (c <=? 57) then digits_ (acc * 10 + (c - 48)) s else None
  end.
Definition parse_int (s : list Z) : option Z :=
  let '(neg, d) := match s with
                   | c :: s' => if c =? 43 then (false, s') else if c =? 45 then (true, s') else (false, s)
                   | [] => (false, [])
                   end in
  match d with
  | [] => None
  | _ => match digits_ 0 d with
         | None => None
         | Some n => let v := if neg then - n else n in
                     if (- 2 ^ 63 <=? v) && (v <? 2 ^ 63) then Some v else None
         end
  end.
(** api/common.go:58-70 getInt, getInt64 (int is 64 bits); 72-84 the others *)
Definition get_int (x : list Z) (def : Z) : Z := match parse_int x with Some v => v | None => def end.
Definition get_or (p : list Z -> option Z) (x : list Z) (def : Z) : Z := match p x with Some v => v | None => def end.

(** server.go:99-111 validAuth (ConstantTimeCompare is equality) *)
Definition valid_auth (o : soptions) (e : env) (u p : list Z) : bool :=
  beqb (e_hash e u) (e_hash e (so_user o)) && beqb (e_hash e p) (e_hash e (so_pass o)).

(** result of a handler: an answer, an error nothing was written before, or a
    panic *)
Inductive hres := HOk (status : Z) (b : body) | HErr (x : serr) | HPanic.

(** the state of the query callback of serveRender (server.go:164-186):
    [rd_first] is the first record's buffer *)
Record rstate := RState { rd_first : option (list Z * drecord); rd_ok : bool; rd_merger : merger }.
(** server.go:189-226 the callback, over the records the database passes *)
Fixpoint render_loop (e : env) (p : mparams) (stop_before : Z) (l : list (Z * Z * list Z)) (s : rstate) : res (rstate * bool) :=
  match l with
  | [] => Ok (s, true)                       (* the whole list was passed *)
  | (_, fin, buf) :: l =>
      do rec <- drec_unmarshal buf;
      do s1 <- match rd_first s with
               | Some _ => Ok (s, true)
               | None =>
                   if e_load e rec then
                     do w <- e_measure e p (Some rec);
                     match w with
                     | None => Ok (RState (Some (buf, rec)) false (rd_merger s), false)
                     | Some w => do m <- mg_set_width w (rd_merger s); Ok (RState (Some (buf, rec)) true m, true)
                     end
                   else Err
               end;
      let '(s1, go) := s1 in
      if go then
        do m <- mg_push rec (rd_merger s1);
        let s2 := RState (rd_first s1) (rd_ok s1) m in
        if stop_before <=? fin then render_loop e p stop_before l s2 else Ok (s2, false)
      else Ok (s1, false)
  end.

(** encoding/json refuses infinities and NaN *)
Definition json_float (f : spec_float) : bool := match f with S754_zero _ | S754_finite _ _ _ => true | _ => false end.
Definition json_column (c : column) : bool := json_float (col_rate c) && forallb (fun b => negb (fnan b) && negb (finf b)) (col_data c).

(** server.go:149-277 serveRender *)
Definition serve_render (e : env) (r : request) : hres :=
  let f := form_value (rq_form r) in
  let metric := f (bytes_of "metric") in
  match metric with
  | [] => HErr EBadRequest
  | _ =>
      let width := get_int (f (bytes_of "width")) 1000 in
      let height := get_int (f (bytes_of "height")) 350 in
      let padding := get_int (f (bytes_of "padding")) 0 in
      let now := get_int (f (bytes_of "now")) (e_clock e) in
      let dur := get_or (e_duration e) (f (bytes_of "duration")) (24 * 3600 * 1000000000) in
      let samples := get_int (f (bytes_of "samples")) 30 in
      let compression := get_or (e_float e) (f (bytes_of "compression")) 0x4014000000000000 in
      let stop_before := i64 (now - dur) in
      let p := MParams now dur width height padding in
      let m := mg_new (MOpts now dur (e_params e compression) (e_sample e samples)) in
      let '(recs, fails) := e_query e metric now in
      match render_loop e p stop_before recs (RState None false m) with
      | Panic | Diverge => HPanic
      | Err => HErr EInternal
      | Ok (s, passed_all) =>
          if fails && passed_all then HErr EInternal       (* the error of Query *)
          else if negb (rd_ok s) then HErr EInternal       (* "too small" *)
          else
            match mg_finish (rd_merger s) with
            | Panic | Diverge => HPanic
            | Err => HErr EInternal
            | Ok cols =>
                if beqb (rq_accept r) (bytes_of "application/json") then
                  if forallb json_column cols then HOk 200 (BGraph metric cols (option_map fst (rd_first s)) p) else HErr EInternal
                else
                  (* server.go:258-265: measuring again when there is no first record *)
                  match rd_first s with
                  | Some _ => HOk 200 (BImage cols (option_map fst (rd_first s)) p)
                  | None => match e_measure e p None with
                            | Ok (Some _) => HOk 200 (BImage cols None p)
                            | Ok None => HErr EInternal
                            | _ => HPanic
                            end
                  end
            end
      end
  end.

(** server.go:280-296 serveQuery *)
Definition serve_query (e : env) (r : request) : hres :=
  let f := form_value (rq_form r) in
  let results := get_int (f (bytes_of "results")) 10 in
  match search_new (f (bytes_of "query")) results with
  | Ok s =>
      let '(names, fails) := e_metrics e in
      match search_run names s with
      | Ok (all, s') => if fails && all then HErr EInternal else HOk 200 (BNames (se_matched s'))
      | Err => HErr EInternal
      | _ => HPanic
      end
  | Err => HErr EInternal
  | _ => HPanic
  end.

(** server.go:114-147 serveHTTP: the answer, and whether the challenge header
    was set *)
Definition serve_http (o : soptions) (e : env) (r : request) : hres * bool :=
  let denied := match so_user o with
                | [] => false
                | _ => match rq_auth r with
                       | None => true
                       | Some (u, p) => negb (valid_auth o e u p)
                       end
                end in
  if denied then (HErr EUnauthorized, true)
  else if negb (beqb (rq_method r) (bytes_of "GET")) then (HErr EMethod, false)
  else if beqb (rq_path r) (bytes_of "/api/render") then (serve_render e r, false)
  else if beqb (rq_path r) (bytes_of "/api/query") then (serve_query e r, false)
  else if beqb (rq_path r) (bytes_of "/api/nonce") then (HOk 200 (BNonce (e_nonce e)), false)
  else match e_static e with
       | Some h => (HOk (h (rq_path r)) BStatic, false)
       | None => (HErr ENotFound, false)
       end.

(** server.go:54-69 New (the default origin) and 73-96 ServeHTTP *)
Definition origin_of (o : soptions) : list Z := match so_origin o with [] => bytes_of "*" | x => x end.
Definition serve (o : soptions) (e : env) (r : request) : res response :=
  let '(h, ch) := serve_http o e r in
  match h with
  | HOk st b => Ok (Resp st (origin_of o) ch b)
  | HErr x => Ok (Resp (status_of x) (origin_of o) ch BError)
  | HPanic => Panic
  end.
