(** Model of src/server/router.rs. *)
From Verif Require Export Accept RespWriter.

(** ** Types and values of [type_map::concurrent::TypeMap]
    A type is an opaque one or [Data<T>] of another; values are left abstract ([V]). [Data::new]
    and [Data::from_arc] (src/server/router.rs:195-205) only wrap, so the value of a [Data<T>] is
    the value inside. *)
Inductive ty := TBase (n : nat) | TData (t : ty).
(** Types as keys ([TypeId]) of the maps of src/server/router.rs:72-76, 94. *)
Fixpoint ty_eqb (a b : ty) : bool :=
  match a, b with
  | TBase n, TBase m => Nat.eqb n m
  | TData x, TData y => ty_eqb x y
  | _, _ => false
  end.
Section Router.
Context {V : Type}.
(** A [TypeMap] holds at most one value of each type; [insert] replaces. src/server/router.rs:94,
    138-143. *)
Definition tmap := list (ty * V).
(** [TypeMap::get], src/server/router.rs:238. *)
Fixpoint tm_get (t : ty) (m : tmap) : option V :=
  match m with [] => None | (u, v) :: r => if ty_eqb u t then Some v else tm_get t r end.
(** [TypeMap::insert], src/server/router.rs:142. *)
Definition tm_insert (t : ty) (v : V) (m : tmap) : tmap := (t, v) :: filter (fun x => negb (ty_eqb (fst x) t)) m.

(** [Params], src/server/router.rs:33. *)
Definition params := list (bytes * bytes).

(** What a request's [Extensions] hold under the two types the router uses.
    src/server/router.rs:72-76. *)
Record exts := mkExts { x_data : option tmap; x_params : option params }.
(** A request as made by src/server/decode.rs:149-154 has no extensions. *)
Definition no_exts : exts := mkExts None None.

(** [Endpoint], src/server/router.rs:158-188: a function of the request, its extensions and the
    response in the writer. *)
Definition endpoint := rhead -> exts -> response -> reading pre.

(** [RouterBuilder], src/server/router.rs:89-95; the [PathTree] is the list of what was inserted
    into it, in order. *)
Record rbuilder := mkRb { rb_tree : list (bytes * endpoint); rb_data : option tmap }.

(** [new], src/server/router.rs:101-106. *)
Definition rb_new : rbuilder := mkRb [] None.

(** [at], src/server/router.rs:116-123. *)
Definition rb_at (m p : bytes) (e : endpoint) (b : rbuilder) : rbuilder :=
  mkRb (rb_tree b ++ [(B "/" ++ m ++ p, e)]) (rb_data b).

(** [wrapped_data::<T>], src/server/router.rs:137-145. *)
Definition rb_wrapped_data (t : ty) (v : V) (b : rbuilder) : rbuilder :=
  let map := match rb_data b with Some m => m | None => [] end in
  mkRb (rb_tree b) (Some (tm_insert t v map)).

(** [data::<T>], src/server/router.rs:129-131. *)
Definition rb_add_data (t : ty) (v : V) (b : rbuilder) : rbuilder := rb_wrapped_data (TData t) v b.

(** [Router], src/server/router.rs:37-43, and [finish], 148-153. *)
Record router := mkRouter { rt_tree : list (bytes * endpoint); rt_data : option tmap }.
(** [finish], src/server/router.rs:148-153. *)
Definition rb_finish (b : rbuilder) : router := mkRouter (rb_tree b) (rb_data b).

(** The public builder calls. src/server/router.rs:116-145. *)
Inductive rcall := RAt (m p : bytes) (e : endpoint) | RData (t : ty) (v : V) | RWrapped (t : ty) (v : V).
(** One call of a builder method, src/server/router.rs:116-145. *)
Definition rb_call (c : rcall) (b : rbuilder) : rbuilder :=
  match c with RAt m p e => rb_at m p e b | RData t v => rb_add_data t v b | RWrapped t v => rb_wrapped_data t v b end.
(** Calls in a row of the builder methods, src/server/router.rs:116-145. *)
Definition rb_calls (cs : list rcall) (b : rbuilder) : rbuilder := fold_left (fun b c => rb_call c b) cs b.

(** [route], src/server/router.rs:55-85. [find] is [PathTree::find] on a tree with the given
    insertions, an oracle; [err] is the text of the error if sending the 404 fails
    ([From<E: Error> for Glitch]). *)
Definition route (find : list (bytes * endpoint) -> bytes -> option (endpoint * params)) (err : bytes)
  (rt : router) (q : rhead) (x : exts) (r : response) : reading pre :=
  match find (rt_tree rt) (B "/" ++ q_meth q ++ u_path (q_uri q)) with
  | Some (e, ps) =>
      let d := match rt_data rt with Some m => Some m | None => x_data x end in
      e q (mkExts d (Some ps)) r
  | None => Rt (PSend (rw_set_status 404 r) (fun _ => Rt None) (Rt (glitch_err err)))
  end.

(** A router as the endpoint of a connection: [accept(stream, |req, resp_wtr|
    router.route(req, resp_wtr))], examples/routing.rs:37-41; a decoded request has no extensions. *)
Definition route_handler find err (rt : router) : handler := fun q => route find err rt q no_exts rw_new.

(** [RouterRequestExt::data::<T>], src/server/router.rs:235-240. *)
Definition req_data (t : ty) (x : exts) : option V := match x_data x with Some m => tm_get (TData t) m | None => None end.

(** [RouterRequestExt::params], src/server/router.rs:242-244. *)
Definition req_params (x : exts) : option params := x_params x.

(** [RouterRequestExt::get_param], src/server/router.rs:246-256. *)
Fixpoint first_param (k : bytes) (ps : params) : option bytes :=
  match ps with [] => None | (n, v) :: r => if beq k n then Some v else first_param k r end.
(** [get_param], src/server/router.rs:246-256. *)
Definition req_get_param (k : bytes) (x : exts) : option bytes :=
  match x_params x with Some ps => first_param k ps | None => None end.
End Router.
Arguments tmap : clear implicits. Arguments exts : clear implicits. Arguments endpoint : clear implicits.
Arguments rbuilder : clear implicits. Arguments router : clear implicits. Arguments rcall : clear implicits.
