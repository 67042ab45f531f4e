(** [connect] with a body that was received: the body of a request (or response) given to the
    client as it is, src/client. Client.v has requests whose body the program made itself. *)
From Verif Require Export Client.

(** [http::Request<Body>] with any body, src/request.rs and src/client/encode.rs:30. *)
Record frequest := mkFreq { fq_meth : bytes; fq_uri : uri; fq_hdrs : hmap; fq_body : fbody }.
(** The request as far as its head is concerned; src/client/encode.rs:33-110 looks only at the
    length of the body. *)
Definition fq_head (q : frequest) : crequest :=
  mkCreq (fq_meth q) (fq_uri q) (fq_hdrs q) (mkBody (f_len (fq_body q)) (mkSrc [] Eof)).

(** [Encoder], src/client/encode.rs:13-26, as [cenc] of Client.v. *)
Record fenc := mkFenc { fe_head : bytes; fe_rdr : reader; fe_done : bool }.

(** [Encoder::poll_read] with a buffer of [n] bytes, src/client/encode.rs:123-165. *)
Definition fenc_poll (ev : env) (n : nat) (e : fenc) : fenc * pres bytes :=
  let h := firstn n (fe_head e) in
  let hd := skipn n (fe_head e) in
  if fe_done e then (mkFenc hd (fe_rdr e) true, POk h)
  else
    match rdr_poll ev (n - length h) (fe_rdr e) with
    | (r, POk d) => (mkFenc hd r (match h ++ d with [] => true | _ => false end), POk (h ++ d))
    | (r, PErr) => (mkFenc hd r false, PErr)
    | (r, PPend f) => (mkFenc hd r false, match h with [] => PPend f | _ => POk h end)
    | (r, PPanic) => (mkFenc hd r false, PPanic)
    | (r, PFuel) => (mkFenc hd r false, PFuel)
    end.

(** [connect], src/client/mod.rs:15-26, as in Client.v. *)
Definition fconnect (ev : env) (fuel : nat) (q : frequest) (s : src) (w : wtr) : wtr * cout :=
  match c_encode (fq_head q) with
  | CEncode => (w, CErr)
  | CLengthPanic => (w, CPanic)
  | CHead h =>
      match copy_go (fenc_poll ev (e_bufcap ev)) fuel (mkFenc h (f_rdr (fq_body q)) false) [] w 0 with
      | (w', ROk _) => (w', snd (c_decode ev s))
      | (w', RErr) | (w', RTimeout) => (w', CErr)
      | (w', RPanic) => (w', CPanic)
      | (w', RFuel) => (w', CFuel)
      end
  end.
