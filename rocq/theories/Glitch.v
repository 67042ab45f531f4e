(** Model of src/server/glitch.rs. *)
From Verif Require Export BodyM.

(** [Glitch], src/server/glitch.rs:48-57. *)
Record glitch := mkGlitch { g_status : option N; g_headers : option hmap; g_version : option version;
                            g_message : option bytes; g_trace : option bytes }.

(** [Glitch::new] / [default] / [internal_server_error], src/server/glitch.rs:68-90, 189-197. *)
Definition glitch_new : glitch := mkGlitch None None None None None.
(** [Glitch::internal_server_error], src/server/glitch.rs:189-197. *)
Definition glitch_ise : glitch := mkGlitch None None None None None.

(** [Glitch::bad_request], src/server/glitch.rs:178-186. *)
Definition glitch_bad_request : glitch := mkGlitch (Some 400%N) None None None None.

(** [Glitch::new_with_err] and [From<E: Error>], src/server/glitch.rs:59-66, 92-103;
    [err] is [error.to_string()]. *)
Definition glitch_err (err : bytes) : glitch := mkGlitch None None None None (Some err).

(** [Glitch::new_with_status_context], src/server/glitch.rs:105-116. *)
Definition glitch_status_context (st : N) (ctx : bytes) : glitch := mkGlitch (Some st) None None (Some ctx) None.

(** [Glitch::new_with_status_err_context], src/server/glitch.rs:118-134. *)
Definition glitch_status_err_context (st : N) (err ctx : bytes) : glitch :=
  mkGlitch (Some st) None None (Some ctx) (Some err).

(** [Glitch::set_status], src/server/glitch.rs:168-170. *)
Definition g_set_status (st : N) (g : glitch) : glitch :=
  mkGlitch (Some st) (g_headers g) (g_version g) (g_message g) (g_trace g).

(** [Glitch::set_message], src/server/glitch.rs:173-175. *)
Definition g_set_message (m : bytes) (g : glitch) : glitch :=
  mkGlitch (g_status g) (g_headers g) (g_version g) (Some m) (g_trace g).

(** The text of [into_inner_response], src/server/glitch.rs:138-150. *)
Definition glitch_text (verbose : bool) (g : glitch) : bytes :=
  let msg := match g_message g with Some m => m | None => [] end in
  if verbose then
    match g_trace g with
    | Some t => match msg with [] => t | _ => msg ++ [LF] ++ t end
    | None => msg
    end
  else msg.

(** [into_inner_response], src/server/glitch.rs:136-165. *)
Definition glitch_response (verbose : bool) (g : glitch) : response :=
  let msg := glitch_text verbose g in
  let hs := match g_headers g with Some h => h | None => [] end in
  mkResp (match g_status g with Some s => s | None => 500%N end)
         (match g_version g with Some v => v | None => HTTP_11 end)
         (match msg with [] => hs | _ => hm_insert h_content_type (B "text/plain") hs end)
         (body_from_string msg).

(** [GlitchExt for Result<T, E>], src/server/glitch.rs:230-256; an error is its text. *)
Definition res_glitch {T} (x : T + bytes) (st : N) : T + glitch :=
  match x with inl t => inl t | inr _ => inr (g_set_status st glitch_new) end.
(** src/server/glitch.rs:242-247. *)
Definition res_glitch_ctx {T} (x : T + bytes) (st : N) (ctx : bytes) : T + glitch :=
  match x with inl t => inl t | inr e => inr (glitch_status_err_context st e ctx) end.
(** src/server/glitch.rs:249-255. *)
Definition res_glitch_with_ctx {T} (x : T + bytes) (st : N) (f : unit -> bytes) : T + glitch :=
  match x with inl t => inl t | inr e => inr (glitch_status_err_context st e (f tt)) end.

(** [GlitchExt for Option<T>], src/server/glitch.rs:258-281. *)
Definition opt_glitch {T} (x : option T) (st : N) : T + glitch :=
  match x with Some t => inl t | None => inr (g_set_status st glitch_new) end.
(** src/server/glitch.rs:267-272. *)
Definition opt_glitch_ctx {T} (x : option T) (st : N) (ctx : bytes) : T + glitch :=
  match x with Some t => inl t | None => inr (glitch_status_context st ctx) end.
(** src/server/glitch.rs:274-280. *)
Definition opt_glitch_with_ctx {T} (x : option T) (st : N) (f : unit -> bytes) : T + glitch :=
  match x with Some t => inl t | None => inr (glitch_status_context st (f tt)) end.

(** The macro [glitch!], src/server/glitch.rs:289-308, and the two-argument [glitch_code!],
    329-336, whose [from_u16(..).unwrap()] panics ([None]) on a code outside 100..=999. (The
    one-argument [glitch_code!] calls a method that does not exist and cannot be used.) *)
Definition glitch_macro0 : glitch := glitch_ise.
(** src/server/glitch.rs:293-299. *)
Definition glitch_macro1 (st : N) : glitch := g_set_status st glitch_new.
(** src/server/glitch.rs:300-307. *)
Definition glitch_macro2 (st : N) (m : bytes) : glitch := g_set_message m (g_set_status st glitch_new).
(** src/server/glitch.rs:329-336. *)
Definition glitch_code2 (code : N) (m : bytes) : option glitch :=
  if status_ok code then Some (g_set_message m (g_set_status code glitch_new)) else None.
