(** Specification: what a history of setter calls on a response writer amounts to. *)
From Verif Require Import RespWriter SpecText SpecHead SpecResponse.

(** Histories are read backwards: the newest call that says something about a part decides. *)
Fixpoint latest {A B} (says : A -> option B) (old : B) (newest_first : list A) : B :=
  match newest_first with
  | [] => old
  | c :: r => match says c with Some x => x | None => latest says old r end
  end.

(** What a call is documented to say about the status, the version and the body. *)
Definition says_status (c : call) : option N :=
  match c with CStatus st | CCode st => Some st | CReplace r => Some (r_status r) | _ => None end.
Definition says_version (c : call) : option version :=
  match c with CReplace r => Some (r_version r) | _ => None end.
Definition says_body (c : call) : option body :=
  match c with
  | CBody b => Some b
  | CText t => Some (mkBody (Some (N.of_nat (length t))) (bytes_src t))
  | CSse l => Some (mkBody None (stream_src l))
  | CReplace r => Some (r_body r)
  | _ => None
  end.

(** What it says about the values of a header (names compare case-insensitively): it sets them
    all, or adds one behind the earlier ones. *)
Inductive word := Sets (vs : list bytes) | Adds (v : bytes).
Definition says_header (n : bytes) (c : call) : option word :=
  match c with
  | CAppend k v => if same_text k n then Some (Adds v) else None
  | CInsert k v => if same_text k n then Some (Sets [v]) else None
  | CText _ => if same_text (B "content-type") n then Some (Sets [B "text/plain"]) else None
  | CSse _ => if same_text (B "content-type") n then Some (Sets [B "text/event-stream"]) else None
  | CReplace r => Some (Sets (values n (hm_iter (r_headers r))))
  | _ => None
  end.
Fixpoint header_said (n : bytes) (old : list bytes) (newest_first : list call) : list bytes :=
  match newest_first with
  | [] => old
  | c :: r => match says_header n c with
              | Some (Sets vs) => vs
              | Some (Adds v) => header_said n old r ++ [v]
              | None => header_said n old r
              end
  end.

(** Calls whose arguments are values of their Rust types. *)
Definition call_typed (c : call) : Prop :=
  match c with
  | CAppend _ v | CInsert _ v => forallb value_byte v = true
  | CReplace r => resp_wf r
  | _ => True
  end.

(** Calls that panic, as documented. *)
Definition call_panics (c : call) : Prop :=
  match c with
  | CCode code => ~ (100 <= code < 1000)%N
  | CAppend n _ | CInsert n _ => header_name n = None
  | _ => False
  end.

(** [says_what r cs r']: the response [r'] is what [r] and the calls [cs] (oldest first) say. *)
Definition said (r : response) (cs : list call) (r' : response) : Prop :=
  let h := rev cs in
  r_status r' = latest says_status (r_status r) h /\
  r_version r' = latest says_version (r_version r) h /\
  r_body r' = latest says_body (r_body r) h /\
  forall n, values n (hm_iter (r_headers r')) = header_said n (values n (hm_iter (r_headers r))) h.

(** ** Event streams
    The events of a stream up to its first error, in a row. *)
Fixpoint events (l : list sev) : bytes :=
  match l with
  | [] | SErr :: _ => []
  | SItem d :: r => d ++ events r
  | SPend _ :: r => events r
  end.
(** What the client is to be told of every event stream: the type, and that the length is open. *)
Definition event_stream (head : bytes) : Prop :=
  exists sl fs, (forall rest, read_head (head ++ rest) = Some (sl, fs, rest)) /\
    values (B "content-type") fs = [B "text/event-stream"] /\
    values (B "transfer-encoding") fs = [B "chunked"] /\ values (B "content-length") fs = [].
