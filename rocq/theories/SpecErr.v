(** Specification: what the texts of [connect]'s errors stand for. *)
From Verif Require Import ClientErr SpecText SpecHead SpecReq SpecResponse SpecClient.

(** No response head arrives. *)
Definition unanswered (s : src) : Prop := forall w rest, ~ delivers s w rest.

(** [blames T trim s t]: what arrives is no response, for the reason that [t] gives. *)
Inductive blames (T : texts) (trim : bool) (s : src) : bytes -> Prop :=
| bl_lost : unanswered s -> ~ clean s -> blames T trim s (B "None: " ++ t_read T)
| bl_closed : unanswered s -> clean s -> (N.of_nat (length (src_data s)) < 8192)%N -> blames T trim s (B "Some(""Empty response"")")
| bl_long l : (unanswered s /\ l = fst (avail false (s_evs s))) \/ (exists rest, delivers s l rest) -> (8192 <= N.of_nat (length l))%N ->
    blames T trim s (B "Some(""Head byte length should be less than 8kb"")")
| bl_syntax w rest t : delivers s w rest -> (forall minor code hs, ~ resp_grammatical trim minor code hs w) ->
    t = B "None: " ++ t_syntax T \/ t = B "Some(""Malformed HTTP head"")" -> blames T trim s t
| bl_version w rest code hs : delivers s w rest -> resp_grammatical trim 0 code hs w -> blames T trim s (B "Some(""Unsupported HTTP version"")")
| bl_both w rest code hs : delivers s w rest -> resp_grammatical trim 1 code hs w ->
    values (B "content-length") hs <> [] -> values (B "transfer-encoding") hs <> [] -> blames T trim s (B "Some(""Unexpected Content-Length header"")")
| bl_length w rest code hs v r t : delivers s w rest -> resp_grammatical trim 1 code hs w ->
    values (B "content-length") hs = v :: r -> (forall n, ~ cl_value v n) -> t = t_str T \/ t = t_number T -> blames T trim s (B "None: " ++ t)
| bl_status w rest code hs : delivers s w rest -> resp_grammatical trim 1 code hs w -> ~ says_chunked hs -> (code < 100)%N ->
    blames T trim s (B "None: " ++ t_status T).

(** [complains T trim q s w o t]: the call fails for the reason that [t] gives, having written
    [o] to [w]. *)
Inductive complains (T : texts) (trim : bool) (q : crequest) (s : src) (w : wtr) : bytes -> bytes -> Prop :=
| cp_host : u_host (c_uri q) = None -> c_meth q = B "CONNECT" \/ values (B "host") (hm_iter (c_hdrs q)) = [] ->
    complains T trim q s w [] (B "Some(""Missing hostname"")")
| cp_port : c_meth q = B "CONNECT" -> u_host (c_uri q) <> None -> u_port (c_uri q) = None -> complains T trim q s w [] (B "Some(""Missing port"")")
| cp_unsent h o : addressed q -> creq_head q h -> prefix o (h ++ src_data (b_src (c_body q))) -> ~ (clean (b_src (c_body q)) /\ accepting w) ->
    complains T trim q s w o (B "Io Error: " ++ t_write T)
| cp_answer h t : addressed q -> creq_head q h -> clean (b_src (c_body q)) -> blames T trim s t ->
    complains T trim q s w (h ++ src_data (b_src (c_body q))) t.
