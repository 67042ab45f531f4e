(** Specification: chunked messages as a tolerant receiver reads them. Like [chunked_message] of
    SpecChunked.v, except that the last chunk's size line may lack its digits (C14) and that trailer
    lines are as tolerant as header lines (SpecReq.v). *)
From Verif Require Import Bytes SpecText SpecChunked SpecReq.

(** The size line of the last chunk. *)
Definition last_line (l : bytes) : Prop := size_line 0 l \/ exists x, chunk_ext x /\ l = x ++ CRLF.

(** [entire trim out hs w]: [w] is a complete message with the body [out] and the trailers [hs]. *)
Definition entire (trim : bool) (out : bytes) (hs : list (bytes * bytes)) (w : bytes) : Prop :=
  exists cw z tw nl, chunks size_line out cw /\ last_line z /\ lfields trim hs tw /\ (length hs <= 16)%nat /\ line_end nl /\
    w = cw ++ z ++ tw ++ nl.

(** [begun out w]: [w] is the beginning of a message and [out] the chunk data in it: whole chunks,
    and perhaps a part of one more. *)
Definition begun (out w : bytes) : Prop :=
  exists p cw, chunks size_line p cw /\
    ((out = p /\ w = cw) \/
     exists n sl c, size_line n sl /\ n <> 0%N /\ (N.of_nat (length c) <= n)%N /\ out = p ++ c /\ w = cw ++ sl ++ c).

(** 1 KiB less than 512 MiB. *)
Definition line_limit : N := 536869888.

(** [bounded lim p tr w]: [w] is a chunked message of the body [p] and the trailers [tr], with no
    size line and no trailer section of more than [lim] bytes. *)
Definition bounded (lim : N) (p : bytes) (tr : list (bytes * bytes)) (w : bytes) : Prop :=
  exists cw z tw, chunks (fun n l => size_line n l /\ (N.of_nat (length l) <= lim)%N) p cw /\
    size_line 0 z /\ (N.of_nat (length z) <= lim)%N /\
    fields tr tw /\ (length tr <= 16)%nat /\ (N.of_nat (length (tw ++ CRLF)) <= lim)%N /\ w = cw ++ z ++ tw ++ CRLF.
