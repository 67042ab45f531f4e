#!/usr/bin/env python3
"""Generates /verif/properties.jsonl (kept as a script so edits stay reviewable)."""
import json
P = []
def p(id, title, statement, quantifier, why, *anchors):
    P.append(dict(id=id, title=title, statement=statement, quantifier=quantifier,
                  why_tests_cant=why, anchors=list(anchors)))

ENC="src/server/encode.rs"; CENC="src/chunked/encoder.rs"; CDEC="src/chunked/decoder.rs"
DEC="src/server/decode.rs"; MOD="src/server/mod.rs"; RW="src/server/response_writer.rs"
GL="src/server/glitch.rs"; CORS="src/server/cors.rs"; RT="src/server/router.rs"; ID="src/server/identity.rs"
BODY="src/body.rs"; TR="src/trailers.rs"; TMO="src/timeout.rs"; UT="src/util.rs"
CE="src/client/encode.rs"; CD="src/client/decode.rs"; CM="src/client/mod.rs"

# ---- server responses
p("C01","Fixed-length response is written byte-exactly",
  "Sending a response whose body declares length n and whose reader yields at least n bytes without error puts on the connection exactly the response head followed by the first n body bytes, and send() reports exactly that many bytes written.",
  "all statuses, header maps, lengths n, body contents, splittings of the body reader into reads and pending polls, and write schedules (partial writes, pending writes) of the connection",
  "the head/body boundary can fall anywhere relative to the 8 KiB copy buffer and the reader may return any split; tests use one small head and a cursor",
  ENC+"::Encoder::{start,encode_head,encode_fixed_body,poll_read}", RW+"::InnerResponse::send")
p("C02","Chunked response carries exactly the body",
  "Sending a response whose body has no declared length puts on the connection the head followed by a well-formed chunked message (non-empty chunks, one final 0-chunk, final CRLF) whose payload is exactly the bytes the body reader yields, in order, and send() reports exactly that many bytes written.",
  "all body contents, all splittings into reads and pending polls, all head lengths (except the panic window of C08), all copy-buffer sizes of at least 7 bytes, all write schedules",
  "chunk boundaries depend on head length, read splits and buffer remainders; each combination is a different wire image",
  CENC+"::ChunkedEncoder", ENC+"::Encoder::encode_chunked_body")
p("C03","Exactly one framing header, chosen from the body",
  "The head of every response contains exactly one of content-length (with the body's declared length in decimal, when it has one) and transfer-encoding: chunked (when it has none); content-length and transfer-encoding headers set by the handler never reach the wire.",
  "all responses: every status, version, header map (including any number of handler-set framing headers) and body",
  "header maps are unbounded; a test checks two conflicting cases",
  ENC+"::Encoder::start")
p("C04","Response head integrity (no header injection)",
  "The head of every response is the status line, the framing line, then name: value lines for exactly the handler's other headers in header-map order, then one blank line; the blank line (CRLFCRLF) occurs only at the end of the head, so no header value can end the head early or add a line.",
  "all header maps with header names and values accepted by the http crate",
  "quantifies over all byte strings accepted as header values",
  ENC+"::Encoder::start")
p("C05","Date header exactly once",
  "A response on which the handler set no date header carries exactly one date header, with the current date; when the handler set date, the server adds none and passes the handler's through.",
  "all header maps and clock values", "universally quantified over header maps", ENC+"::Encoder::start")
p("C06","Default content-type",
  "A content-type: application/octet-stream header is added exactly when the body is non-empty or of unknown length and the handler set no content-type; a handler-set content-type is never changed, and an empty body gets none.",
  "all header maps and bodies", "universally quantified over header maps and bodies", ENC+"::Encoder::start")
p("C07","Sending a response terminates",
  "send() completes (with success or error) for every body whose reader reaches its end.",
  "all declared lengths and reader contents, including readers shorter than the declared length",
  "a hang cannot be observed by a terminating test; needs a divergence argument",
  ENC+"::Encoder::encode_fixed_body")
p("C08","Sending a response never panics",
  "send() never panics, whatever the head length and the body.",
  "all head lengths, declared lengths up to usize::MAX, body contents and read splits",
  "the panic window is two head lengths out of every 8192, combined with an immediately-empty body",
  CENC+"::{encode_chunks_eos,encode_eos}", ENC+"::encode_fixed_body")
p("C09","Body read failure is reported, wire holds only a prefix",
  "If the body reader fails while a response is being sent, send() returns an error and everything written to the connection is a prefix of what the same response would have written had the reader continued; no bytes other than head and body bytes are written.",
  "all points at which the reader may fail, all splits and schedules", "every crash point in every split", ENC, RW+"::InnerResponse::send")
p("C10","Write failure and partial writes",
  "Whatever the connection's write behaviour (short writes, pending, failure at any point), the bytes it accepted are a prefix of the response's encoding; send() returns success only if all of it was accepted, and then reports its exact length.",
  "all write schedules and failure points", "all interleavings of encoder reads and connection writes", RW+"::InnerResponse::send", RW+"::ResponseWritten::bytes_written")

# ---- chunked decoding
p("C11","Chunked request bodies never contain foreign bytes",
  "While a handler reads the body of a well-formed chunked message, the bytes delivered so far are always a prefix of the message's payload: never framing bytes, never bytes of a following message, never reordered or duplicated.",
  "all well-formed chunked messages (any chunk sizes, extensions, hex case, trailers), all bytes following them, all segmentations and pending schedules of the transport, all read buffer sizes, after any number of reads",
  "state space is (segmentation x buffer sizes x chunk layout)", CDEC+"::ChunkedDecoder::poll_read")
p("C12","Chunked bodies are delivered completely (small messages)",
  "Reading the body of a well-formed chunked message of at most 4096 wire bytes to its end delivers exactly the payload.",
  "all well-formed chunked messages up to 4096 wire bytes, all segmentations, all buffer sizes", "all segmentations", CDEC)
p("C13","Chunked bodies are delivered completely (any size)",
  "Reading the body of any well-formed chunked message to its end delivers exactly the payload.",
  "all well-formed chunked messages of any length, all segmentations and buffer sizes",
  "fails only when a framing element straddles the end of the decoder's internal buffer; needs searching over layouts",
  CDEC+"::ChunkedDecoder::poll_read")
p("C14","Malformed chunked bodies are reported",
  "When the next chunk-size line is not a hex size, or the chunk data is not followed by CRLF, reading the body returns an error; no byte after the malformation is delivered.",
  "all malformed suffixes, all segmentations", "all inputs", CDEC+"::{decode_init,decode_chunk_end}")
p("C15","Trailers are delivered exactly once and faithfully",
  "After the body of a well-formed chunked message has been read to its end, receiving the trailers yields exactly the trailer fields of the message in order; they are sent once, and not before the body has been delivered.",
  "all trailer sections of up to 16 fields, all segmentations", "all segmentations and histories of reads",
  CDEC+"::decode_trailer", TR+"::TrailersSender", BODY+"::recv_trailers")
p("C16","A truncated chunked body is distinguishable from a complete one",
  "If the connection ends before the final chunk of a chunked body, reading the body reports an error rather than a successful end.",
  "all truncation points of all messages", "every crash point", CDEC+"::{poll_read_chunk,poll_read}")
p("C17","A truncated fixed-length body is distinguishable from a complete one",
  "If the connection ends before content-length body bytes were received, reading the body reports an error rather than a successful end.",
  "all truncation points", "every crash point", DEC+"::decode", BODY+"::into_bytes")
p("C18","Chunked decoding always makes progress",
  "Every read of a chunked body with a non-empty buffer finishes: it never loops forever on any input, well-formed or not.",
  "all byte streams, segmentations and non-empty buffer sizes; all decoder states reachable by reads",
  "termination for all inputs", CDEC+"::poll_read")
p("C19","Chunked decoding never panics",
  "No input, segmentation or sequence of reads makes the chunked decoder panic.",
  "all byte streams (well-formed or hostile), segmentations, buffer sizes, numbers of reads (also after errors and after the end)",
  "all inputs and histories", CDEC)
p("C20","What the encoder writes the decoder reads back",
  "A chunked message produced by the response encoder, of at most 4096 wire bytes, decodes to the original body, for every splitting on either side.",
  "all bodies and all splits on both sides", "all inputs and schedules", CENC, CDEC)

# ---- request decoding
p("C21","Request head does not depend on segmentation",
  "Which request (or which error) the server obtains from a byte stream is independent of how the transport splits the head into reads and of pending polls.",
  "all byte streams and all segmentations", "all segmentations", DEC+"::decode")
p("C22","Fixed-length request body is exactly the next content-length bytes",
  "A handler reading the body of a request with content-length n (not chunked) to its end gets exactly the n bytes following the head; never more.",
  "all n, all following bytes, all segmentations and read sizes", "all segmentations", DEC+"::decode")
p("C23","Host header is required",
  "A request without a Host header is never passed to the handler and is answered 400; when all else is well-formed that is the reason.",
  "all request heads", "all inputs", DEC+"::decode")
p("C24","HTTP/1.0 is refused with 505",
  "A well-formed HTTP/1.0 request is answered 505 and never reaches the handler.",
  "all HTTP/1.0 heads", "all inputs", DEC+"::decode")
p("C25","Unsupported transfer-encoding: 501 and connection closed",
  "A request carrying a transfer-encoding other than chunked or identity (ASCII case-insensitive) is answered 501, never reaches the handler, no later request on the connection is processed and accept returns the unsupported-transfer-encoding error.",
  "all HTTP/1.1 heads with such a header and no earlier invalid header; all following bytes", "all inputs and histories",
  DEC+"::decode", DEC+"::fail_to_crate_err", MOD+"::accept_with_opts")
p("C26","Invalid content-length is refused with 400",
  "A request with a content-length header that is not a decimal number below 2^64 is answered 400 and never reaches the handler.",
  "all header values", "all inputs", DEC+"::decode")
p("C27","Duplicate content-length values do not change framing silently",
  "A request with two differing content-length headers is refused.",
  "all heads", "request-smuggling property: must hold for all duplicates", DEC+"::decode")
p("C28","Framing choice",
  "The body is chunked-decoded exactly when the last transfer-encoding header is chunked (any case), regardless of content-length; otherwise its length is the last content-length, or 0 when there is none.",
  "all accepted heads", "all inputs", DEC+"::decode")
p("C29","Handler sees exactly the headers sent",
  "The header map the handler sees has, for every name (case-insensitively), exactly the values sent under it, in the order sent, and no other names.",
  "all accepted heads", "all inputs", DEC+"::decode")
p("C30","Expect: 100-continue",
  "The server writes the interim 100 Continue response before the handler is called exactly when the first Expect header is 100-continue; otherwise it writes nothing before the handler's response.",
  "all HTTP/1.1 heads whose headers are valid", "all inputs", DEC+"::handle_100_continue")
p("C31","No request bytes are silently skipped",
  "Every byte received is part of a request head, or of that request's body, or is still available for the next request.",
  "all byte streams", "all inputs and histories", DEC+"::decode", MOD+"::accept_with_opts")

# ---- connection
p("C32","Keep-alive: one response per request, in order",
  "On a connection where each request arrives in transport segments of its own and each handler call reads its request body and sends its response, handler i sees request i, and the connection carries exactly the concatenation of the responses in request order; at end of input accept returns Ok.",
  "any number of requests, any requests, handlers, segmentations within a request", "histories of unbounded length", MOD+"::accept_with_opts")
p("C33","Pipelined requests are all answered",
  "If several requests arrive on a connection, each is answered, however the transport groups them into segments.",
  "all segmentations", "depends on where segment boundaries fall", MOD+"::accept_with_opts", DEC+"::decode")
p("C34","Unread request bodies are never taken for requests",
  "Bytes of a request's body are never interpreted as the head of another request, even when the handler does not read the body.",
  "all handlers and segmentations", "depends on segment boundaries and handler behaviour", MOD+"::accept_with_opts")
p("C35","End of input ends the connection cleanly",
  "When the peer closes, at a request boundary or in the middle of a head, accept returns Ok and writes nothing for the unfinished head.",
  "all truncation points within a head", "every truncation point", MOD+"::accept_with_opts", DEC+"::decode")
p("C36","Bad requests do not kill the connection",
  "After answering a bad request (400 or 505) the server goes on and serves the following requests on the connection.",
  "all histories mixing bad and good requests, each in its own segments", "unbounded histories", MOD+"::accept_with_opts", MOD+"::handle_decode_fail")
p("C37","A broken connection ends accept",
  "If reading from the connection fails persistently, accept returns.",
  "all histories before the failure", "non-termination is not observable by tests", MOD+"::accept_with_opts", DEC+"::fail_to_crate_err")
p("C38","accept fails only for unsupported transfer-encoding",
  "accept returns an error only when a request with an unsupported transfer-encoding was received; no handler behaviour, no peer behaviour and no i/o failure makes it return an error.",
  "all inputs, schedules, handlers", "all histories", MOD+"::accept_with_opts")
p("C39","A handler error is answered with the glitch response",
  "If the handler fails before sending, the connection carries exactly the glitch's response for that request and the connection goes on.",
  "all glitches and handlers", "all inputs", MOD+"::accept_with_opts", GL+"::into_inner_response")
p("C40","At most one response per request",
  "No handler behaviour makes the server write more than one response for a request.",
  "all handlers, including those failing after having sent", "all handler behaviours", MOD+"::accept_with_opts")
p("C41","Idle timeout",
  "With a timeout configured, if the timer fires while the server waits for a request head accept returns Ok without writing anything or calling the handler for it; data that is already available is never lost to the timer (the request wins when both are ready).",
  "all histories and all instants at which the timer may fire", "all schedules", TMO+"::TimeoutFuture::poll", MOD+"::accept_with_opts")

# ---- glitch / response writer
p("C42","Glitch response",
  "A glitch's response has the glitch's status (500 when unset), version (HTTP/1.1 when unset), its message as body, and content-type text/plain exactly overriding when the body is non-empty; other headers of the glitch are kept.",
  "all glitches", "all inputs", GL+"::into_inner_response")
p("C43","Error details stay private unless verbose",
  "With verbose_glitch off, the response to a failing handler does not depend on the underlying error's text; with it on, the text is appended after the message.",
  "all errors, messages, statuses", "non-interference: quantifies over pairs of errors", GL+"::into_inner_response", MOD+"::accept_with_opts")
p("C44","GlitchExt conversions",
  "glitch, glitch_ctx and glitch_with_ctx pass successes through unchanged, turn an error/None into a glitch with exactly the given status and context, and keep the error text only in the trace.",
  "all results, options, statuses, contexts", "all inputs", GL+"::GlitchExt")
p("C45","ResponseWriter setters touch only what they document",
  "set_status, set_body, insert_header, append_header, set_text and set_sse change exactly the documented parts of the response; insert replaces, append keeps earlier values.",
  "all responses and all sequences of setter calls", "all sequences of calls", RW+"::ResponseWriter")
p("C46","set_text sets 200 OK",
  "After set_text the response status is 200 OK, as documented.",
  "all prior responses", "documented for all states", RW+"::ResponseWriter::set_text")

# ---- cors
p("C47","Non-CORS requests pass untouched",
  "A request without an Origin header passes validation and leaves the response unchanged.",
  "all configurations, requests, responses", "all inputs", CORS+"::Cors::validate")
p("C48","Disallowed origins are refused and get no CORS headers",
  "When an origin list is configured, a request from an origin not in it is refused with 400 before the endpoint behind validate is reached, the response is left unchanged and the refusal carries no access-control headers.",
  "all configurations and requests", "all inputs", CORS+"::Cors::validate")
p("C49","Allowed simple requests",
  "A non-OPTIONS request from an allowed origin passes; the response's access-control-allow-origin is exactly the request's origin, credentials are allowed exactly when configured, and all unrelated response headers are unchanged.",
  "all configurations, requests, responses", "all inputs", CORS+"::Cors::validate")
p("C50","Preflight decision",
  "An OPTIONS request with an allowed origin is accepted (status 200, handler not called) exactly when its requested method is in the allowed set and every comma-separated requested header is an allowed header name (case-insensitive); otherwise it is refused with 400.",
  "all configurations and requests", "all inputs", CORS+"::Cors::validate")
p("C51","Preflight accepts whitespace after commas",
  "A preflight whose requested-headers list uses optional whitespace around commas, as HTTP list syntax allows, is treated like the same list without whitespace.",
  "all lists", "all inputs", CORS+"::is_header_allowed")
p("C52","Origin configuration",
  "allow_origin and allow_origins accumulate; exactly the configured origins are allowed; allow_any_origin makes every origin allowed; with nothing configured every origin is allowed and echoed, also when credentials are allowed.",
  "all sequences of builder calls", "all histories of builder calls", CORS+"::CorsBuilder")

# ---- router
p("C53","Routing respects method and path",
  "A routed request reaches an endpoint only if that endpoint was registered for exactly the request's method and a pattern matching its path; if no registered pattern for its method matches, the answer is an empty 404.",
  "all route tables, methods and paths", "all inputs", RT+"::Router::route", RT+"::RouterBuilder::at")
p("C54","Routes of different methods never collide",
  "No request is matched by registrations for two different methods; the key a route is stored under determines its method and its path, and a path without parameters matches only itself.",
  "all methods (tokens) and all paths starting with a slash", "all pairs", RT+"::RouterBuilder::at")
p("C55","Router data and params",
  "In an endpoint, data::<T>() returns the last value of type T registered with data, and None for types never registered; get_param returns the first captured value with that name.",
  "all sequences of registrations and lookups", "all histories", RT+"::RouterBuilder::data", RT+"::RouterRequestExt")

# ---- identity
p("C56","Login is recognised",
  "A request carrying, as the only cookie, the token set by set_auth_token for user u is recognised as u until the configured expiration has passed.",
  "all keys, users, expirations, clock values", "all inputs and instants", ID+"::Identity::{set_auth_token,authorized_user}")
p("C57","Logout and expiry are effective",
  "The cookie set by forget never authorises anyone, and a token is not accepted once the clock is past its expiration.",
  "all keys, configurations, clock values after 1970", "all instants", ID+"::Identity::{forget,authorized_user}")
p("C58","Forged tokens are refused",
  "A cookie value not produced by signing with the server key never authorises anyone.",
  "all keys and cookie values (signature scheme as an oracle)", "all inputs", ID+"::Identity::authorized_user")
p("C59","The identity cookie is found among several cookies",
  "If a request's Cookie header contains the identity cookie anywhere in its list, the user is recognised.",
  "all cookie lists", "all inputs", ID+"::get_cookie")
p("C60","The configured issuer is checked",
  "A token issued under a different issuer is refused.",
  "all issuers", "all inputs", ID+"::Identity::authorized_user")

# ---- body
p("C61","Body round trip",
  "Body::from_bytes, from String and from &str, read back with into_bytes, give back exactly the bytes, and the declared length is their number.",
  "all byte strings and read sizes", "all inputs", BODY, UT+"::Cursor")
p("C62","Reading with trailers terminates",
  "into_bytes_with_trailer and into_string_with_trailer complete for every body whose reader ends.",
  "all bodies: fixed-length, chunked complete, chunked truncated", "a hang is not observable by a test", BODY+"::into_bytes_with_trailer", TR)

# ---- client
p("C63","Client request encoding",
  "connect writes exactly: request line with path and query, a host header if the caller set none, content-length, the caller's headers, blank line, body bytes; in any write schedule.",
  "all requests with a known-length body and all schedules", "all inputs and schedules", CE+"::Encoder", CM+"::connect")
p("C64","Client requests are understood by the server",
  "A request encoded by the client and decoded by the server yields the same method, path, query, headers and body.",
  "all requests with origin-form targets and at most 14 headers; all segmentations", "all inputs", CE, DEC)
p("C65","Server responses are understood by the client",
  "A fixed-length response encoded by the server and decoded by the client yields the same status, headers and body.",
  "all responses with a head below 8 KiB; all segmentations", "all inputs", ENC, CD)
p("C66","Chunked responses keep status and headers in the client",
  "A chunked response decoded by the client has the status and headers that were sent.",
  "all chunked responses", "all inputs", CD+"::decode")
p("C67","Client rejects ambiguous framing and oversized heads",
  "A response with both content-length and transfer-encoding is rejected; a response head of 8192 bytes or more is rejected; the client never buffers an unbounded head line set.",
  "all responses", "all inputs", CD+"::decode")
p("C68","Client sends exactly the declared length",
  "The body bytes connect writes after the head are exactly content-length many.",
  "all bodies", "depends on reader vs declared length", CE+"::Encoder::poll_read")
p("C69","Server bounds the size of a request head",
  "The server stops reading a request head after a bounded number of bytes.",
  "all input streams", "unbounded input", DEC+"::decode")
p("C70","At most 16 headers",
  "A request with more than 16 header fields is refused with 400 and never reaches the handler.",
  "all heads", "all inputs", DEC+"::decode")

# ---- added while modelling
p("C71","A failed chunked body stays failed",
  "After a read of a chunked body returned an error, no later read delivers body bytes or reports a successful end.",
  "all inputs, segmentations and further reads; all contents of recycled buffers", "depends on the state left behind by the error path and on the contents of a recycled buffer", CDEC+"::ChunkedDecoder::poll_read")
p("C72","Malformed trailers are reported",
  "When the trailer section of a chunked message of at most 4096 wire bytes contains an illegal byte in a field name or value, reading the body delivers the whole payload and then reports an error, and no trailers are delivered.",
  "all payloads, trailer sections, segmentations and buffer sizes", "all inputs and segmentations", CDEC+"::decode_trailer")
p("C73","A finished body leaves the connection alone",
  "Once a request body has reported its end, further reads report the end again and take nothing from the connection.",
  "all bodies, fixed-length and chunked; all further reads", "depends on the decoder state after the end and on what the transport delivers next", CDEC+"::ChunkedDecoder::poll_read")
p("C74","The identity cookie carries the configured attributes",
  "The Set-Cookie header of set_auth_token has the configured cookie name, path, Secure and HttpOnly flags and the expiration as Max-Age; forget sends the same with Max-Age 0. Each setting is the newest builder call about it, and by default the cookie is jwt, for path /, Secure, HttpOnly and valid for 24 hours.",
  "all sequences of builder calls, users and responses", "all configurations", ID+"::Identity::{set_auth_token,forget}")
p("C75","Reading a whole request body gives exactly the body",
  "into_bytes on the body of a decoded request always returns; for a declared length it gives that many bytes following the head (an error if the connection breaks before them), for a well-formed chunked body that fits the decoder's buffer its payload, for a malformed one an error; into_string gives the same when it is UTF-8 and an error otherwise.",
  "all requests, segmentations, and read buffer sizes", "all inputs, segmentations and read sizes", BODY+"::into_bytes", BODY+"::into_string")
p("C76","Reading a request body as text does not panic",
  "into_string on the body of a decoded request returns text or an error, whatever length the peer declares.",
  "all requests", "all declared lengths", BODY+"::into_string")

p("C77","connect does not panic",
  "connect returns a response or an error for every request, transport and peer.",
  "all requests, bodies of known and unknown length, write schedules and responses", "all inputs", CM+"::connect", CE+"::Encoder::encode")
p("C78","Interim responses are not final",
  "The response connect returns is the final one: 1xx responses that precede it are skipped, and the status and headers are those of the final response.",
  "all responses and segmentations", "all inputs", CD+"::decode")
p("C79","Bodies delimited by the close are delivered",
  "A response with neither content-length nor transfer-encoding has as body the bytes up to the close of the connection.",
  "all responses", "all inputs", CD+"::decode")
p("C80","Conflicting content-lengths are rejected by the client",
  "A response with several differing content-length values, or a malformed one, is refused.",
  "all responses", "all inputs", CD+"::decode")
p("C81","The client recognises the chunked coding",
  "A response whose transfer-encoding is chunked, in any letter case, has the payload of the chunks as its body.",
  "all responses", "all inputs", CD+"::decode")
p("C82","Truncated response bodies are reported",
  "When the connection ends before the declared length, reading the response body reports an error; otherwise it gives exactly the declared number of bytes following the head.",
  "all responses, segmentations, failures and read sizes", "all inputs and failures", CD+"::decode", BODY+"::into_bytes")
p("C83","Responses that have no body",
  "The response to a HEAD request, and a response with status 204 or 304, has an empty body whatever its headers say.",
  "all requests and responses", "all inputs", CM+"::connect", CD+"::decode")
p("C84","The client's answer does not depend on segmentation",
  "Two connections that deliver the same bytes in different segments, with different pending polls, give the same error or the same response over the same following bytes.",
  "all responses and all pairs of segmentations", "all segmentations", CD+"::decode")
p("C85","The client's verdict on a response head",
  "The outcome of reading a response is determined by its head block: refused unless it is a grammatical HTTP/1.1 head below 8192 bytes with at most 128 fields, a status from 100 and unambiguous framing; otherwise returned with its status, its fields (with a date added when there is none) and its body, except for what C66, C80 and C81 say.",
  "all byte strings and segmentations", "all inputs", CD+"::decode")

p("C86","A request body sent back arrives unchanged",
  "A handler that answers with the body of its request (set_body(req.into_body())) sends exactly the bytes of that body: with its declared length, or as a chunked message with the same payload.",
  "all requests with a complete body, read segmentations, write schedules, statuses and response headers", "all inputs and schedules", RW+"::ResponseWriter::set_body", ENC, BODY)
p("C87","Sending a request body back comes to an end",
  "A handler that answers with the body of its request returns from sending, with success or an error, whatever the peer sends and whenever it closes.",
  "all byte streams, close and failure points", "termination over all inputs", ENC+"::encode_fixed_body", DEC, CDEC)
p("C88","A broken request body is not passed off as whole",
  "When the body of the request is cut off or malformed, sending it back reports an error and the response written so far is incomplete.",
  "all truncation points and malformed messages", "all truncation points", ENC, CENC, CDEC)
p("C89","A proxied response body arrives unchanged",
  "A handler that answers with the body of a response it received as a client sends exactly the bytes the upstream server sent.",
  "all upstream responses with a complete body, segmentations and write schedules", "all inputs and schedules", CD, ENC, BODY)
p("C90","Proxying comes to an end",
  "A handler that answers with the body of an upstream response returns from sending, whenever the upstream connection closes or fails.",
  "all upstream byte streams, close and failure points", "termination over all inputs", CD, ENC+"::encode_fixed_body", CDEC)

p("C91","What a response body has produced is sent before it is waited for",
  "When the reader of a response body has no data yet, the head and everything the reader has produced so far (framed as chunks, or up to the declared length) has already been given to the transport, whatever the reader does later.",
  "all responses, pieces produced, later behaviours of the reader and write schedules", "what is on the wire at a moment, for all schedules and futures of the reader", ENC+"::Encoder::poll_read", CENC, RW)
p("C92","Body data that has arrived is handed over before waiting for more",
  "A handler reading its request's body gets every byte of body data that has arrived, and the end of the body if that has arrived, after a bounded number of reads and before the connection is polled for more.",
  "all requests, cut-off points of the message, segmentations and read sizes, and everything the peer does later", "all segmentations and futures of the connection", CDEC+"::ChunkedDecoder::poll_read", DEC)
p("C93","No lost wakeups",
  "A read of a request body, and a poll of the response encoder, reports Pending only if the connection (or the response body's reader) answered Pending in that same call, as its last answer, so the task is woken.",
  "all requests, bodies, decoder and encoder states reached and read sizes", "all states and schedules", CDEC+"::ChunkedDecoder::poll_read", ENC+"::Encoder::poll_read")

p("C94","The decoder's memory limit",
  "While decoding a chunked body the decoder never holds more than 512 MiB; a chunk size line too long for it is reported as an error, never as the end of the body.",
  "all inputs, segmentations and read sizes, and all growth policies of the buffer (bounded part)", "inputs of half a gigabyte and all growth policies", CDEC+"::ChunkedDecoder::poll_read", CDEC+"::decode_init")
p("C95","Requests are answered as they arrive",
  "Once a request has arrived completely and its handler has answered, the whole answer has been given to the transport, whatever the peer sends later and whether or not it closes: a client that waits for each answer before its next request always gets it, and later input never changes what was answered.",
  "all sequences of requests with complete bodies, all continuations of the input stream and write schedules", "all futures of the connection", MOD+"::accept", DEC+"::decode", ENC)
p("C96","Answers that must not have a body",
  "The answer to a HEAD request, and a response with status 204 or 304, is sent without body bytes whatever body the handler gave it.",
  "all requests, statuses and bodies", "all inputs", ENC+"::Encoder::start", RW+"::InnerResponse::send")
p("C97","Connection: close is honoured",
  "After the answer to a request with the header connection: close the server reads no further request from that connection.",
  "all requests and continuations of the connection", "all inputs", MOD+"::accept", DEC+"::decode")
p("C98","More than one Host header is refused",
  "A request with several Host headers is answered 400 and its handler is not called.",
  "all requests", "all inputs", DEC+"::decode")
p("C99","CORS answers say that they depend on the origin",
  "A response to which Cors adds the requesting origin carries vary: origin, so that a cache does not serve it to another origin.",
  "all configurations, requests and responses", "all configurations", CORS+"::Cors::validate")

p("C100","No input makes the server panic",
  "Whatever bytes arrive on a connection, in whatever segments and with whatever failures, accept does not panic.",
  "all byte streams, segmentations, failures, write schedules and handlers", "all hostile inputs", MOD+"::accept", DEC, CDEC, ENC)
p("C101","accept returns once the peer has closed",
  "When the peer closes the connection, after whatever it has sent and however the transport takes what is written, accept returns: Ok, or the error for an unsupported transfer encoding.",
  "all byte streams, segmentations, finitely many failures, write schedules, and handlers that stop reading at the end or the first error of a body and send bodies of the declared length", "termination over all inputs and schedules", MOD+"::accept", DEC, CDEC, ENC)

p("C102","Calls from tophat's client to tophat's server",
  "When the client sends requests over a connection served by accept, the handlers are given exactly those requests and bodies, in order; the server answers each with its handler's response, taking nothing from the connection behind the last request; and each call returns the status, the headers and the body of its own response.",
  "all sequences of requests, handlers' responses, segmentations and write schedules on both sides", "two programs on unbounded sessions and all schedules", CE, CD, CM, MOD+"::accept", DEC, ENC)
p("C103","The client hands over what has arrived",
  "connect returns the response once its head has arrived, taking nothing from the connection that comes later; reading the body then gives every byte of body data that has arrived, and its end, after a bounded number of reads and before the connection is polled for more; a read reports Pending only if the connection did in that same call.",
  "all responses, cut-off points, segmentations and read sizes, and everything the server does later", "all segmentations and futures of the connection", CD, CDEC+"::ChunkedDecoder::poll_read")
p("C104","The client sends what its request body has produced",
  "When the body of a request has no data yet, the client has already given the head and everything the body has produced to the transport, whatever the body or the peer do later; the encoder reports Pending only if the body did in that same call and the head has been passed on.",
  "all requests, pieces produced, later behaviours of the body and of the peer, and write schedules", "what is on the wire at a moment, for all schedules and futures", CE+"::Encoder::poll_read", CM)

p("C105","Event streams",
  "A response given a stream with set_sse is sent as text/event-stream in chunks that carry the stream's events in order and nothing else; each event is on the wire before the stream is waited on for the next; the body is ended exactly when the stream ends, and a stream that fails leaves it cut off.",
  "all streams (finite, with waits and errors anywhere), prior responses and write schedules; for completeness at least one byte of events", "all streams, schedules and futures of the stream", RW+"::ResponseWriter::set_sse", ENC, CENC)

p("C106","Names, values and header maps",
  "Header names are non-empty tokens of at most 65535 bytes and compare without regard to the case of ASCII letters; methods are non-empty tokens and keep their case; values hold no control characters but tabs. Appending a header adds its value behind those of its name, inserting replaces them, and neither touches any other name.",
  "all byte strings, header maps and sequences of operations", "all names, values and spellings", DEC+"::decode", RW+"::ResponseWriter::append_header", ENC)
p("C107","Request targets",
  "A request whose target begins with a slash reaches the handler with the path up to the first question mark, the query behind it and without the fragment; if the target has characters that neither may hold, or is longer than 65534 bytes, it is refused with 400 and the handler is not called.",
  "all requests, targets, segmentations and write schedules", "all targets", DEC+"::decode")
p("C108","Status lines",
  "The status line of every response consists of the version, the status code in decimal and the phrase registered for the code.",
  "all responses: versions, status codes, headers and bodies", "all codes, on the wire", ENC+"::encode")

p("C109","Responses are flushed",
  "A response that was sent has been flushed. On a connection that does not fail, the server neither waits for the next request nor ends the connection while anything it wrote is still in the transport's buffers: interim responses, error responses and what was written of responses whose body failed included.",
  "all requests, handlers (whose glitches have legal headers), bodies and write schedules", "all interleavings of writing, failing and flushing", RW+"::InnerResponse::send", MOD+"::accept", DEC)
p("C110","The interim response is flushed",
  "When a request that expects 100-continue is given to the handler, the interim response has been flushed, so that the client behind a buffering transport goes on to send its body.",
  "all requests with the expectation and write schedules", "needs a transport that buffers", DEC+"::handle_100_continue")
p("C111","Streamed data is flushed",
  "When the body of a response has no data yet, everything it has produced so far has been flushed.",
  "all bodies and streams, moments and write schedules", "needs a transport that buffers and a body that waits", RW+"::InnerResponse::send", ENC)
p("C112","The client's request is flushed",
  "connect does not wait for the response while anything of the request is still in the transport's buffers.",
  "all requests, bodies and write schedules", "needs a transport that buffers", CM)

p("C113","Answers that hand the request's body on",
  "On a connection where each request arrives in transport segments of its own and each handler either reads its request's body and answers, or answers with that body (set_body(req.into_body())), the connection carries exactly the responses due, in order; a body handed on is the request's, with its declared length or as chunks with the same payload, and the next request is read from directly behind it.",
  "all conversations of any length, segmentations and write schedules", "needs arbitrarily long conversations whose responses are produced while their requests are read", MOD, RW, ENC, DEC)
p("C114","Nothing follows a response that could not be completed",
  "When the body of a response fails after part of it has been written, the client does not get bytes of another response in place of the missing ones.",
  "all responses, handlers and write schedules", "needs a body that fails at an arbitrary point and a peer that goes on reading", MOD, ENC, CENC)
p("C115","Clients that stall are cut off",
  "With a timeout configured, a connection whose client stops sending in the middle of a request is ended when the time has passed.",
  "all requests and moments at which the client stops", "needs a client that stops at an arbitrary point, and all times", MOD+"::accept", DEC, TMO)

p("C116","Broken field lines are refused",
  "A message whose head holds a line that is not a field - a blank before the colon, a continuation line, a missing name or colon, a carriage return or another control character in a value - is not interpreted: the server answers it 400 without calling the handler, the client returns an error.",
  "all heads with any number of fields before and any bytes after the line, all segmentations", "all positions and bytes; smuggling attempts use the ones no test thought of", DEC+"::decode", CD+"::decode")

p("C117","A connection can be used for one call after another",
  "Calls of the client made one after the other on the same transport are each answered by the response to their own request, whatever the caller does with the bodies of the responses before.",
  "all numbers of calls, all requests and responses, all segmentations", "sequences of messages of any length; whether a part of one is left for the next depends on the pieces they arrive in", CM+"::connect", CD+"::decode")

p("C118","A response means that the request was sent",
  "connect returns a response only if it has written its whole request and the reader of the request's body has ended without an error; when that reader or the transport fails, it returns an error, even if a response has arrived.",
  "all requests, body readers, write schedules and responses", "a failure may hit at any byte, with any answer already waiting", CM+"::connect", CE+"::Encoder")

p("C119","An error of the handler is reported whatever came before",
  "When a handler ends with an error, the response of that error is written after whatever the handler has written before (a response cut short because its body failed, a complete response, or a request body handed on), and the connection goes on.",
  "all requests, handlers, responses and accepting write schedules",
  "needs handlers that fail at every possible point of sending and after it",
  MOD, RW, GL)
p("C120","Bytes of other connections do not leak into a body",
  "What is delivered from a body, written on a connection, taken from it and the way it ends depend on what arrived on that connection only, not on what other connections have left in the decoder's recycled buffers.",
  "all byte streams, segmentations, read sizes, handlers and contents of recycled buffers",
  "compares two executions that differ in memory no test controls",
  CDEC, MOD, BODY)
p("C121","A chunked body cut off by a failing connection is an error",
  "When the connection fails before the last byte of a chunked body has come, whoever reads the body gets the chunk data that has come and then an error, never the end: a handler's reads, into_bytes and its kin, sending the body on, and the same for the body of a response the client receives.",
  "all chunked messages, points of failure, segmentations, pauses and read sizes",
  "every byte of a message is a point of failure, in combination with every segmentation and read size",
  CDEC, MOD, BODY)
p("C122","Trailers vouch for the body they came with",
  "Whatever bytes arrive, a chunked body delivers chunk data of what came and nothing else, and its trailers are sent at most once, only when a complete message has arrived and all of its data has been delivered. So when into_bytes_with_trailer or into_string_with_trailer succeeds on the body of a request or of a response the client receives, the bytes returned are the whole body the peer sent, and the trailers are the peer's, even though a plain read of a body cut off by the peer ends without an error.",
  "all inputs, well-formed or not, of any size, cut off anywhere, with any failures, segmentations, pauses and read sizes",
  "about arbitrary input, and about what a success implies rather than what an input leads to",
  CDEC, BODY, DEC, CD)
p("C123","A well-formed chunked body is never reported as broken",
  "When the peer sends a well-formed chunked body (any number of chunks of any sizes, up to 16 trailers, no size line and no trailer section within 1 KiB of 512 MiB) over a connection that does not fail, reading it never returns an error, never panics and comes to an end: into_bytes succeeds, with the body or a beginning of it, and into_bytes_with_trailer succeeds with the whole body and the peer's trailers or does not return. This holds for the body of a request and of a response the client receives, also where the body is delivered short.",
  "all messages up to the limits, segmentations, pauses, buffer contents left behind, and read sizes",
  "excludes an error for every message and segmentation, including messages of hundreds of megabytes",
  CDEC, BODY, DEC, CD)
p("C124","Buffered reading of a body agrees with plain reading",
  "A body can be read through AsyncRead, through AsyncBufRead (fill_buf and consume), or both in any order. Whatever the mixture, the bytes obtained, the end or the error, and the state in which the body is then are those of some sequence of plain reads: nothing is lost or delivered twice by looking at bytes without consuming them, by consuming a part, or by reading between a look and the next. In particular a complete body is delivered in order and whole, with the trailers after it. This holds for the bodies of requests, of responses the client receives, and for the program's own.",
  "all bodies, sequences of reads and looks, amounts consumed, segmentations and failures of the connection",
  "sequences of mixed calls are unbounded and each layer (BufReader, Take, the chunk decoder, the sender of trailers) buffers differently",
  BODY, DEC, CDEC, CD)
p("C125","Reading a body line by line gives its lines",
  "Reading a complete body with read_until or lines (AsyncBufReadExt) gives its lines, each with the LF that ends it, the last without one if the body does not end with LF, and nothing else; it succeeds when the body arrived, and takes nothing that follows the body on the connection.",
  "all bodies, segmentations and pauses",
  "line ends fall anywhere relative to segments and chunks; the fault found needs a failure or a further request right behind the body",
  BODY, DEC, CDEC)
p("C126","A forwarded request carries the body it came with",
  "When a handler gives the body of the request it received to the client (connect), as a proxy does, what is written is the head due and exactly the body received; the next server obtains the same body; and if the body does not arrive in full, connect returns an error instead of a response.",
  "all received requests, new heads, segmentations and pauses on either connection",
  "three connections interleave: the one the body comes from, the one it goes to, and the reader of the next server; the faults found need a chunked body, or a peer that closes in the middle",
  CE, CM, BODY, DEC)
p("C127","A client behind a proxy gets the answer of the server behind it",
  "When a handler answers with the status and the body that connect returned to it, a client that reads the answer obtains the status and the body which the server behind the proxy has sent, and the fields the handler set.",
  "all answers of the server behind, fields set by the proxy, segmentations and pauses on both connections",
  "two decoders, two encoders and two connections are in play, each free to split the body elsewhere; the fault found needs a chunked answer with a status other than 200",
  CM, CD, ENC, BODY)
p("C128","A received body sent on under another length",
  "A handler may answer with Body::from_reader(req.into_body(), len). With Some(k) the response declares k bytes and carries the first k bytes of the request's payload, however the request framed it; with None it carries the whole payload as chunks; if the payload has fewer than k bytes the send returns an error.",
  "all requests, payloads, framings, lengths, segmentations and pauses",
  "the request's framing and the response's are independent, and reading and writing interleave in any way; the fault found is a send that never returns",
  BODY, ENC, CENC, DEC)
p("C129","The error of a failed call says what went wrong",
  "When connect returns an error, its text names the reason: which part of the address is missing (nothing was written then); that the request could not be written; or, when it was written whole, what was wrong with the answer. In particular 'Empty response' means that the server closed without sending anything.",
  "all requests, bodies, answers, write schedules and segmentations",
  "the reason depends on where in the answer the connection ends or fails, and on every field of the head; the fault found needs a server that closes in the middle of a head",
  CE, CD, CM, "src/client/error.rs")
p("C130","Whatever a peer sends, the server writes answers to what has arrived",
  "Whatever bytes arrive on a connection, and whatever errors occur on it, everything accept writes belongs to an answer to a request head that has arrived: for each head the refusal due by its text, or the response a handler decided on when it was called with this head; in the order of the heads, at most one for each, preceded by 100 Continue only where the head asks for it; each in full before the next begins, and all in full once accept returns. (For handlers that do not fail after sending and whose responses can be sent, on a connection that takes what is written.)",
  "all byte sequences, segmentations, pauses, i/o errors, numbers of requests, options and such handlers",
  "the input is arbitrary, so neither the number of requests nor where they begin is known in advance; a test can only look at chosen conversations",
  MOD, DEC, ENC, RW, GL)
p("C131","The answers do not depend on how the requests are cut into segments",
  "Two connections on which the same bytes arrive, with the same handlers, carry the same bytes in return and end the same way, however the bytes are cut into transport segments, with whatever pauses between them (short of a timeout) and whatever pieces the answers are written in.",
  "all conversations, pairs of segmentations, pauses, writers, options and handlers that read their request's body",
  "a test compares a few segmentations; their number grows exponentially with the bytes, and the buffers make the code take different paths for each",
  MOD, DEC, CDEC, ENC)
p("C132","A Cors configuration written into the fields means what the fields say",
  "CorsBuilder's fields are public. Whatever values of their types a program puts in them, with or without calling the builder's methods, an origin outside the origins field is refused with 400, a request other than OPTIONS from one inside it (or from any, when the field is None) passes with the access-control headers the fields describe, and a preflight is granted exactly when the method and every header it asks for are in the fields, the grant listing all of them; builder calls can make the same configuration, so C47-C52 hold for it.",
  "all values of the fields, iteration orders of the sets, requests and responses",
  "the sets are unbounded, their iteration order differs from run to run, and origins that no builder call can name (null) can be put in the field",
  CORS)
p("C133","A release build does what a debug build does",
  "Where a debug build (arithmetic overflow and debug assertions panic) does not panic, a release build of the same program (arithmetic wraps, assertions are left out) behaves identically: on every connection accept reads and writes the same bytes and ends the same way, every send and every token issued comes out the same, and reading bodies and making requests do not depend on the build at all.",
  "all connections, handlers, responses, readers, writers, options, clocks and users",
  "tests run in debug builds and servers in release builds; no number of runs in one shows what the other does",
  ENC, CENC, MOD, ID)
with open("/verif/properties.jsonl","w") as f:
    for q in P: f.write(json.dumps(q)+"\n")
print(len(P))
