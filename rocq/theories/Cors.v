(** Model of src/server/cors.rs. *)
From Verif Require Export Accept RespWriter.

(** ** [HashSet]
    A set is a list without repetitions; the order in which a set is iterated is an argument of
    [cors_finish]. src/server/cors.rs:56-64, 260-275. *)
Fixpoint set_mem (x : bytes) (s : list bytes) : bool :=
  match s with [] => false | y :: r => beq y x || set_mem x r end.
(** [HashSet::insert], src/server/cors.rs:87, 122, 157. *)
Definition set_add (x : bytes) (s : list bytes) : list bytes := if set_mem x s then s else s ++ [x].
(** [HashSet::extend], src/server/cors.rs:105, 140, 175, 219. *)
Definition set_extend (xs s : list bytes) : list bytes := fold_left (fun s x => set_add x s) xs s.

(** [CorsBuilder], src/server/cors.rs:51-66. The fields are public: a program may put any values
    of their types in them, with or without the methods below. *)
Record builder := mkBuilder {
  cb_credentials : bool; cb_headers : list bytes; cb_exposed : list bytes;
  cb_age : option N; cb_methods : list bytes; cb_origins : option (list bytes)
}.

(** [Cors::build], src/server/cors.rs:280-289. *)
Definition cors_build : builder := mkBuilder false [] [] None [] None.

(** [allow_credentials], src/server/cors.rs:69-72. *)
Definition allow_credentials (allow : bool) (b : builder) : builder :=
  mkBuilder allow (cb_headers b) (cb_exposed b) (cb_age b) (cb_methods b) (cb_origins b).

(** The conversions of an iterator's items, one of which may panic. src/server/cors.rs:101-104,
    136-139, 171-174, 209-217. *)
Fixpoint convert {A} (f : A -> option bytes) (l : list A) : option (list bytes) :=
  match l with
  | [] => Some []
  | x :: r => match f x, convert f r with Some y, Some ys => Some (y :: ys) | _, _ => None end
  end.

(** [allow_method] and [allow_methods], src/server/cors.rs:79-107; [None]: panic. *)
Definition allow_method (m : bytes) (b : builder) : option builder :=
  match method_of m with
  | Some m' => Some (mkBuilder (cb_credentials b) (cb_headers b) (cb_exposed b) (cb_age b) (set_add m' (cb_methods b)) (cb_origins b))
  | None => None
  end.
(** src/server/cors.rs:96-107. *)
Definition allow_methods (ms : list bytes) (b : builder) : option builder :=
  match convert method_of ms with
  | Some ms' => Some (mkBuilder (cb_credentials b) (cb_headers b) (cb_exposed b) (cb_age b) (set_extend ms' (cb_methods b)) (cb_origins b))
  | None => None
  end.

(** [allow_header] and [allow_headers], src/server/cors.rs:114-142. *)
Definition allow_header (h : bytes) (b : builder) : option builder :=
  match header_name h with
  | Some h' => Some (mkBuilder (cb_credentials b) (set_add h' (cb_headers b)) (cb_exposed b) (cb_age b) (cb_methods b) (cb_origins b))
  | None => None
  end.
(** src/server/cors.rs:131-142. *)
Definition allow_headers (hs : list bytes) (b : builder) : option builder :=
  match convert header_name hs with
  | Some hs' => Some (mkBuilder (cb_credentials b) (set_extend hs' (cb_headers b)) (cb_exposed b) (cb_age b) (cb_methods b) (cb_origins b))
  | None => None
  end.

(** [expose_header] and [expose_headers], src/server/cors.rs:149-177. *)
Definition expose_header (h : bytes) (b : builder) : option builder :=
  match header_name h with
  | Some h' => Some (mkBuilder (cb_credentials b) (cb_headers b) (set_add h' (cb_exposed b)) (cb_age b) (cb_methods b) (cb_origins b))
  | None => None
  end.
(** src/server/cors.rs:166-177. *)
Definition expose_headers (hs : list bytes) (b : builder) : option builder :=
  match convert header_name hs with
  | Some hs' => Some (mkBuilder (cb_credentials b) (cb_headers b) (set_extend hs' (cb_exposed b)) (cb_age b) (cb_methods b) (cb_origins b))
  | None => None
  end.

(** [allow_any_origin], src/server/cors.rs:185-188. *)
Definition allow_any_origin (b : builder) : builder :=
  mkBuilder (cb_credentials b) (cb_headers b) (cb_exposed b) (cb_age b) (cb_methods b) None.

(** [splitn(2, "://")] of src/server/cors.rs:443-445: the text before and after the first
    occurrence ([None]: there is none, and [expect("missing scheme")] panics). *)
Fixpoint split_scheme (l : bytes) : option (bytes * bytes) :=
  match l with
  | [] => None
  | c :: r =>
      if beq (firstn 3 l) (B "://") then Some ([], skipn 3 l)
      else match split_scheme r with Some (s, t) => Some (c :: s, t) | None => None end
  end.

(** [IntoOrigin for &str], src/server/cors.rs:441-449, then [to_string] and [parse] of
    src/server/cors.rs:209-215. [origin_of s t] is the text of the [headers] crate's
    [Origin::try_from_parts(s, t, None)], an oracle. *)
Definition into_origin (origin_of : bytes -> bytes -> option bytes) (l : bytes) : option bytes :=
  match split_scheme l with
  | Some (s, t) => match origin_of s t with Some o => header_value o | None => None end
  | None => None
  end.

(** [allow_origins] and [allow_origin], src/server/cors.rs:195-222. *)
Definition allow_origins (origin_of : bytes -> bytes -> option bytes) (os : list bytes) (b : builder) : option builder :=
  match convert (into_origin origin_of) os with
  | Some os' => Some (mkBuilder (cb_credentials b) (cb_headers b) (cb_exposed b) (cb_age b) (cb_methods b)
                        (Some (set_extend os' (match cb_origins b with Some s => s | None => [] end))))
  | None => None
  end.
(** src/server/cors.rs:195-197. *)
Definition allow_origin (origin_of : bytes -> bytes -> option bytes) (o : bytes) (b : builder) : option builder :=
  allow_origins origin_of [o] b.

(** [max_age], src/server/cors.rs:225-228. *)
Definition max_age (s : N) (b : builder) : builder :=
  mkBuilder (cb_credentials b) (cb_headers b) (cb_exposed b) (Some s) (cb_methods b) (cb_origins b).

(** The [headers] crate's [AccessControlAllowHeaders] and its like, collected from an iterator:
    the items separated by comma and space. Collected at src/server/cors.rs:235, 240, 244. *)
Fixpoint flat_csv (l : list bytes) : bytes :=
  match l with
  | [] => []
  | [x] => x
  | x :: r => x ++ B ", " ++ flat_csv r
  end.

(** [Cors], src/server/cors.rs:254-276. *)
Record cors := mkCors {
  c_credentials : bool;
  c_headers_set : list bytes; c_headers : bytes;
  c_exposed : option bytes;
  c_age : option N;
  c_methods_set : list bytes; c_methods : bytes;
  c_origins : option (list bytes)
}.

(** [finish], src/server/cors.rs:231-248. [oh], [oe], [om] give the orders in which the three
    sets are iterated. *)
Definition cors_finish (oh oe om : list bytes -> list bytes) (b : builder) : cors :=
  mkCors (cb_credentials b) (cb_headers b) (flat_csv (oh (cb_headers b)))
    (match cb_exposed b with [] => None | _ => Some (flat_csv (oe (cb_exposed b))) end)
    (cb_age b) (cb_methods b) (flat_csv (om (cb_methods b))) (cb_origins b).

(** The public builder methods. src/server/cors.rs:67-228. *)
Inductive bcall :=
| BCredentials (allow : bool) | BMethod (m : bytes) | BMethods (ms : list bytes)
| BHeader (h : bytes) | BHeaders (hs : list bytes) | BExpose (h : bytes) | BExposes (hs : list bytes)
| BAnyOrigin | BOrigin (o : bytes) | BOrigins (os : list bytes) | BAge (s : N).
(** One call of a builder method, src/server/cors.rs:67-228. *)
Definition b_call (origin_of : bytes -> bytes -> option bytes) (c : bcall) (b : builder) : option builder :=
  match c with
  | BCredentials x => Some (allow_credentials x b)
  | BMethod m => allow_method m b
  | BMethods ms => allow_methods ms b
  | BHeader h => allow_header h b
  | BHeaders hs => allow_headers hs b
  | BExpose h => expose_header h b
  | BExposes hs => expose_headers hs b
  | BAnyOrigin => Some (allow_any_origin b)
  | BOrigin o => allow_origin origin_of o b
  | BOrigins os => allow_origins origin_of os b
  | BAge s => Some (max_age s b)
  end.
(** Calls in a row of the builder methods, src/server/cors.rs:67-228. *)
Fixpoint b_calls (origin_of : bytes -> bytes -> option bytes) (cs : list bcall) (b : builder) : option builder :=
  match cs with
  | [] => Some b
  | c :: r => match b_call origin_of c b with Some b' => b_calls origin_of r b' | None => None end
  end.

(** [is_method_allowed], src/server/cors.rs:391-395. *)
Definition is_method_allowed (c : cors) (v : bytes) : bool :=
  match method_of v with Some m => set_mem m (c_methods_set c) | None => false end.

(** [is_header_allowed], src/server/cors.rs:397-401. *)
Definition is_header_allowed (c : cors) (h : bytes) : bool :=
  match header_name h with Some n => set_mem n (c_headers_set c) | None => false end.

(** [is_origin_allowed], src/server/cors.rs:403-409. *)
Definition is_origin_allowed (c : cors) (o : bytes) : bool :=
  match c_origins c with Some s => set_mem o s | None => true end.

(** [append_common_headers], src/server/cors.rs:422-432; [typed_insert] replaces. *)
Definition append_common_headers (c : cors) (hs : hmap) : hmap :=
  let hs := if c_credentials c then hm_insert h_ac_allow_credentials (B "true") hs else hs in
  match c_exposed c with Some v => hm_insert h_ac_expose_headers v hs | None => hs end.

(** [append_preflight_headers], src/server/cors.rs:411-420. *)
Definition append_preflight_headers (c : cors) (hs : hmap) : hmap :=
  let hs := append_common_headers c hs in
  let hs := hm_insert h_ac_allow_headers (c_headers c) hs in
  let hs := hm_insert h_ac_allow_methods (c_methods c) hs in
  match c_age c with Some a => hm_insert h_ac_max_age (to_dec a) hs | None => hs end.

(** The checks of a preflight request after the origin's, src/server/cors.rs:321-352. *)
Definition preflight_ok (c : cors) (hs : hmap) : bool :=
  match hm_get h_ac_request_method hs with
  | Some m => is_method_allowed c m
  | None => false
  end &&
  match hm_get h_ac_request_headers hs with
  | Some v =>
      match value_to_str v with
      | Some t => forallb (is_header_allowed c) (split_on (ascii_of_N 44) t)
      | None => false
      end
  | None => true
  end.

(** [validate], src/server/cors.rs:303-389: the response writer's response afterwards, and [Ok]
    or the glitch. *)
Definition validate (c : cors) (q : rhead) (r : response) : response * (unit + glitch) :=
  match hm_get h_origin (q_hdrs q) with
  | None => (r, inl tt)
  | Some o =>
      if beq (q_meth q) (B "OPTIONS") then
        if negb (is_origin_allowed c o) then (r, inr glitch_bad_request)
        else if negb (preflight_ok c (q_hdrs q)) then (r, inr glitch_bad_request)
        else
          let hs := hm_insert h_ac_allow_origin o (append_preflight_headers c []) in
          (r, inr (mkGlitch (Some 200%N) (Some hs) None None None))
      else if is_origin_allowed c o then
        (mkResp (r_status r) (r_version r) (hm_insert h_ac_allow_origin o (append_common_headers c (r_headers r))) (r_body r), inl tt)
      else (r, inr glitch_bad_request)
  end.

(** An endpoint with Cors in front, as in examples/cors.rs:49-55:
    [cors.validate(&req, &mut resp_wtr)?; ...]. The rest of the endpoint is a function of the
    request and of the writer's response. *)
Definition with_cors (c : cors) (h : rhead -> response -> reading pre) : handler :=
  fun q => match validate c q rw_new with
           | (r, inl _) => h q r
           | (_, inr g) => Rt (PFail g)
           end.
