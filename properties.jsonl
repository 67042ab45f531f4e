{"id": "C01", "title": "Fixed-length response is written byte-exactly", "statement": "Sending a response whose body declares length n and whose reader yields at least n bytes without error puts on the connection exactly the response head followed by the first n body bytes, and send() reports exactly that many bytes written.", "quantifier": "all statuses, header maps, lengths n, body contents, splittings of the body reader into reads and pending polls, and write schedules (partial writes, pending writes) of the connection", "why_tests_cant": "the head/body boundary can fall anywhere relative to the 8 KiB copy buffer and the reader may return any split; tests use one small head and a cursor", "anchors": ["src/server/encode.rs::Encoder::{start,encode_head,encode_fixed_body,poll_read}", "src/server/response_writer.rs::InnerResponse::send"]}
{"id": "C02", "title": "Chunked response carries exactly the body", "statement": "Sending a response whose body has no declared length puts on the connection the head followed by a well-formed chunked message (non-empty chunks, one final 0-chunk, final CRLF) whose payload is exactly the bytes the body reader yields, in order, and send() reports exactly that many bytes written.", "quantifier": "all body contents, all splittings into reads and pending polls, all head lengths (except the panic window of C08), all copy-buffer sizes of at least 7 bytes, all write schedules", "why_tests_cant": "chunk boundaries depend on head length, read splits and buffer remainders; each combination is a different wire image", "anchors": ["src/chunked/encoder.rs::ChunkedEncoder", "src/server/encode.rs::Encoder::encode_chunked_body"]}
{"id": "C03", "title": "Exactly one framing header, chosen from the body", "statement": "The head of every response contains exactly one of content-length (with the body's declared length in decimal, when it has one) and transfer-encoding: chunked (when it has none); content-length and transfer-encoding headers set by the handler never reach the wire.", "quantifier": "all responses: every status, version, header map (including any number of handler-set framing headers) and body", "why_tests_cant": "header maps are unbounded; a test checks two conflicting cases", "anchors": ["src/server/encode.rs::Encoder::start"]}
{"id": "C04", "title": "Response head integrity (no header injection)", "statement": "The head of every response is the status line, the framing line, then name: value lines for exactly the handler's other headers in header-map order, then one blank line; the blank line (CRLFCRLF) occurs only at the end of the head, so no header value can end the head early or add a line.", "quantifier": "all header maps with header names and values accepted by the http crate", "why_tests_cant": "quantifies over all byte strings accepted as header values", "anchors": ["src/server/encode.rs::Encoder::start"]}
{"id": "C05", "title": "Date header exactly once", "statement": "A response on which the handler set no date header carries exactly one date header, with the current date; when the handler set date, the server adds none and passes the handler's through.", "quantifier": "all header maps and clock values", "why_tests_cant": "universally quantified over header maps", "anchors": ["src/server/encode.rs::Encoder::start"]}
{"id": "C06", "title": "Default content-type", "statement": "A content-type: application/octet-stream header is added exactly when the body is non-empty or of unknown length and the handler set no content-type; a handler-set content-type is never changed, and an empty body gets none.", "quantifier": "all header maps and bodies", "why_tests_cant": "universally quantified over header maps and bodies", "anchors": ["src/server/encode.rs::Encoder::start"]}
{"id": "C07", "title": "Sending a response terminates", "statement": "send() completes (with success or error) for every body whose reader reaches its end.", "quantifier": "all declared lengths and reader contents, including readers shorter than the declared length", "why_tests_cant": "a hang cannot be observed by a terminating test; needs a divergence argument", "anchors": ["src/server/encode.rs::Encoder::encode_fixed_body"]}
{"id": "C08", "title": "Sending a response never panics", "statement": "send() never panics, whatever the head length and the body.", "quantifier": "all head lengths, declared lengths up to usize::MAX, body contents and read splits", "why_tests_cant": "the panic window is two head lengths out of every 8192, combined with an immediately-empty body", "anchors": ["src/chunked/encoder.rs::{encode_chunks_eos,encode_eos}", "src/server/encode.rs::encode_fixed_body"]}
{"id": "C09", "title": "Body read failure is reported, wire holds only a prefix", "statement": "If the body reader fails while a response is being sent, send() returns an error and everything written to the connection is a prefix of what the same response would have written had the reader continued; no bytes other than head and body bytes are written.", "quantifier": "all points at which the reader may fail, all splits and schedules", "why_tests_cant": "every crash point in every split", "anchors": ["src/server/encode.rs", "src/server/response_writer.rs::InnerResponse::send"]}
{"id": "C10", "title": "Write failure and partial writes", "statement": "Whatever the connection's write behaviour (short writes, pending, failure at any point), the bytes it accepted are a prefix of the response's encoding; send() returns success only if all of it was accepted, and then reports its exact length.", "quantifier": "all write schedules and failure points", "why_tests_cant": "all interleavings of encoder reads and connection writes", "anchors": ["src/server/response_writer.rs::InnerResponse::send", "src/server/response_writer.rs::ResponseWritten::bytes_written"]}
{"id": "C11", "title": "Chunked request bodies never contain foreign bytes", "statement": "While a handler reads the body of a well-formed chunked message, the bytes delivered so far are always a prefix of the message's payload: never framing bytes, never bytes of a following message, never reordered or duplicated.", "quantifier": "all well-formed chunked messages (any chunk sizes, extensions, hex case, trailers), all bytes following them, all segmentations and pending schedules of the transport, all read buffer sizes, after any number of reads", "why_tests_cant": "state space is (segmentation x buffer sizes x chunk layout)", "anchors": ["src/chunked/decoder.rs::ChunkedDecoder::poll_read"]}
{"id": "C12", "title": "Chunked bodies are delivered completely (small messages)", "statement": "Reading the body of a well-formed chunked message of at most 4096 wire bytes to its end delivers exactly the payload.", "quantifier": "all well-formed chunked messages up to 4096 wire bytes, all segmentations, all buffer sizes", "why_tests_cant": "all segmentations", "anchors": ["src/chunked/decoder.rs"]}
{"id": "C13", "title": "Chunked bodies are delivered completely (any size)", "statement": "Reading the body of any well-formed chunked message to its end delivers exactly the payload.", "quantifier": "all well-formed chunked messages of any length, all segmentations and buffer sizes", "why_tests_cant": "fails only when a framing element straddles the end of the decoder's internal buffer; needs searching over layouts", "anchors": ["src/chunked/decoder.rs::ChunkedDecoder::poll_read"]}
{"id": "C14", "title": "Malformed chunked bodies are reported", "statement": "When the next chunk-size line is not a hex size, or the chunk data is not followed by CRLF, reading the body returns an error; no byte after the malformation is delivered.", "quantifier": "all malformed suffixes, all segmentations", "why_tests_cant": "all inputs", "anchors": ["src/chunked/decoder.rs::{decode_init,decode_chunk_end}"]}
{"id": "C15", "title": "Trailers are delivered exactly once and faithfully", "statement": "After the body of a well-formed chunked message has been read to its end, receiving the trailers yields exactly the trailer fields of the message in order; they are sent once, and not before the body has been delivered.", "quantifier": "all trailer sections of up to 16 fields, all segmentations", "why_tests_cant": "all segmentations and histories of reads", "anchors": ["src/chunked/decoder.rs::decode_trailer", "src/trailers.rs::TrailersSender", "src/body.rs::recv_trailers"]}
{"id": "C16", "title": "A truncated chunked body is distinguishable from a complete one", "statement": "If the connection ends before the final chunk of a chunked body, reading the body reports an error rather than a successful end.", "quantifier": "all truncation points of all messages", "why_tests_cant": "every crash point", "anchors": ["src/chunked/decoder.rs::{poll_read_chunk,poll_read}"]}
{"id": "C17", "title": "A truncated fixed-length body is distinguishable from a complete one", "statement": "If the connection ends before content-length body bytes were received, reading the body reports an error rather than a successful end.", "quantifier": "all truncation points", "why_tests_cant": "every crash point", "anchors": ["src/server/decode.rs::decode", "src/body.rs::into_bytes"]}
{"id": "C18", "title": "Chunked decoding always makes progress", "statement": "Every read of a chunked body with a non-empty buffer finishes: it never loops forever on any input, well-formed or not.", "quantifier": "all byte streams, segmentations and non-empty buffer sizes; all decoder states reachable by reads", "why_tests_cant": "termination for all inputs", "anchors": ["src/chunked/decoder.rs::poll_read"]}
{"id": "C19", "title": "Chunked decoding never panics", "statement": "No input, segmentation or sequence of reads makes the chunked decoder panic.", "quantifier": "all byte streams (well-formed or hostile), segmentations, buffer sizes, numbers of reads (also after errors and after the end)", "why_tests_cant": "all inputs and histories", "anchors": ["src/chunked/decoder.rs"]}
{"id": "C20", "title": "What the encoder writes the decoder reads back", "statement": "A chunked message produced by the response encoder, of at most 4096 wire bytes, decodes to the original body, for every splitting on either side.", "quantifier": "all bodies and all splits on both sides", "why_tests_cant": "all inputs and schedules", "anchors": ["src/chunked/encoder.rs", "src/chunked/decoder.rs"]}
{"id": "C21", "title": "Request head does not depend on segmentation", "statement": "Which request (or which error) the server obtains from a byte stream is independent of how the transport splits the head into reads and of pending polls.", "quantifier": "all byte streams and all segmentations", "why_tests_cant": "all segmentations", "anchors": ["src/server/decode.rs::decode"]}
{"id": "C22", "title": "Fixed-length request body is exactly the next content-length bytes", "statement": "A handler reading the body of a request with content-length n (not chunked) to its end gets exactly the n bytes following the head; never more.", "quantifier": "all n, all following bytes, all segmentations and read sizes", "why_tests_cant": "all segmentations", "anchors": ["src/server/decode.rs::decode"]}
{"id": "C23", "title": "Host header is required", "statement": "A request without a Host header is never passed to the handler and is answered 400; when all else is well-formed that is the reason.", "quantifier": "all request heads", "why_tests_cant": "all inputs", "anchors": ["src/server/decode.rs::decode"]}
{"id": "C24", "title": "HTTP/1.0 is refused with 505", "statement": "A well-formed HTTP/1.0 request is answered 505 and never reaches the handler.", "quantifier": "all HTTP/1.0 heads", "why_tests_cant": "all inputs", "anchors": ["src/server/decode.rs::decode"]}
{"id": "C25", "title": "Unsupported transfer-encoding: 501 and connection closed", "statement": "A request carrying a transfer-encoding other than chunked or identity (ASCII case-insensitive) is answered 501, never reaches the handler, no later request on the connection is processed and accept returns the unsupported-transfer-encoding error.", "quantifier": "all HTTP/1.1 heads with such a header and no earlier invalid header; all following bytes", "why_tests_cant": "all inputs and histories", "anchors": ["src/server/decode.rs::decode", "src/server/decode.rs::fail_to_crate_err", "src/server/mod.rs::accept_with_opts"]}
{"id": "C26", "title": "Invalid content-length is refused with 400", "statement": "A request with a content-length header that is not a decimal number below 2^64 is answered 400 and never reaches the handler.", "quantifier": "all header values", "why_tests_cant": "all inputs", "anchors": ["src/server/decode.rs::decode"]}
{"id": "C27", "title": "Duplicate content-length values do not change framing silently", "statement": "A request with two differing content-length headers is refused.", "quantifier": "all heads", "why_tests_cant": "request-smuggling property: must hold for all duplicates", "anchors": ["src/server/decode.rs::decode"]}
{"id": "C28", "title": "Framing choice", "statement": "The body is chunked-decoded exactly when the last transfer-encoding header is chunked (any case), regardless of content-length; otherwise its length is the last content-length, or 0 when there is none.", "quantifier": "all accepted heads", "why_tests_cant": "all inputs", "anchors": ["src/server/decode.rs::decode"]}
{"id": "C29", "title": "Handler sees exactly the headers sent", "statement": "The header map the handler sees has, for every name (case-insensitively), exactly the values sent under it, in the order sent, and no other names.", "quantifier": "all accepted heads", "why_tests_cant": "all inputs", "anchors": ["src/server/decode.rs::decode"]}
{"id": "C30", "title": "Expect: 100-continue", "statement": "The server writes the interim 100 Continue response before the handler is called exactly when the first Expect header is 100-continue; otherwise it writes nothing before the handler's response.", "quantifier": "all HTTP/1.1 heads whose headers are valid", "why_tests_cant": "all inputs", "anchors": ["src/server/decode.rs::handle_100_continue"]}
{"id": "C31", "title": "No request bytes are silently skipped", "statement": "Every byte received is part of a request head, or of that request's body, or is still available for the next request.", "quantifier": "all byte streams", "why_tests_cant": "all inputs and histories", "anchors": ["src/server/decode.rs::decode", "src/server/mod.rs::accept_with_opts"]}
{"id": "C32", "title": "Keep-alive: one response per request, in order", "statement": "On a connection where each request arrives in transport segments of its own and each handler call reads its request body and sends its response, handler i sees request i, and the connection carries exactly the concatenation of the responses in request order; at end of input accept returns Ok.", "quantifier": "any number of requests, any requests, handlers, segmentations within a request", "why_tests_cant": "histories of unbounded length", "anchors": ["src/server/mod.rs::accept_with_opts"]}
{"id": "C33", "title": "Pipelined requests are all answered", "statement": "If several requests arrive on a connection, each is answered, however the transport groups them into segments.", "quantifier": "all segmentations", "why_tests_cant": "depends on where segment boundaries fall", "anchors": ["src/server/mod.rs::accept_with_opts", "src/server/decode.rs::decode"]}
{"id": "C34", "title": "Unread request bodies are never taken for requests", "statement": "Bytes of a request's body are never interpreted as the head of another request, even when the handler does not read the body.", "quantifier": "all handlers and segmentations", "why_tests_cant": "depends on segment boundaries and handler behaviour", "anchors": ["src/server/mod.rs::accept_with_opts"]}
{"id": "C35", "title": "End of input ends the connection cleanly", "statement": "When the peer closes, at a request boundary or in the middle of a head, accept returns Ok and writes nothing for the unfinished head.", "quantifier": "all truncation points within a head", "why_tests_cant": "every truncation point", "anchors": ["src/server/mod.rs::accept_with_opts", "src/server/decode.rs::decode"]}
{"id": "C36", "title": "Bad requests do not kill the connection", "statement": "After answering a bad request (400 or 505) the server goes on and serves the following requests on the connection.", "quantifier": "all histories mixing bad and good requests, each in its own segments", "why_tests_cant": "unbounded histories", "anchors": ["src/server/mod.rs::accept_with_opts", "src/server/mod.rs::handle_decode_fail"]}
{"id": "C37", "title": "A broken connection ends accept", "statement": "If reading from the connection fails persistently, accept returns.", "quantifier": "all histories before the failure", "why_tests_cant": "non-termination is not observable by tests", "anchors": ["src/server/mod.rs::accept_with_opts", "src/server/decode.rs::fail_to_crate_err"]}
{"id": "C38", "title": "accept fails only for unsupported transfer-encoding", "statement": "accept returns an error only when a request with an unsupported transfer-encoding was received; no handler behaviour, no peer behaviour and no i/o failure makes it return an error.", "quantifier": "all inputs, schedules, handlers", "why_tests_cant": "all histories", "anchors": ["src/server/mod.rs::accept_with_opts"]}
{"id": "C39", "title": "A handler error is answered with the glitch response", "statement": "If the handler fails before sending, the connection carries exactly the glitch's response for that request and the connection goes on.", "quantifier": "all glitches and handlers", "why_tests_cant": "all inputs", "anchors": ["src/server/mod.rs::accept_with_opts", "src/server/glitch.rs::into_inner_response"]}
{"id": "C40", "title": "At most one response per request", "statement": "No handler behaviour makes the server write more than one response for a request.", "quantifier": "all handlers, including those failing after having sent", "why_tests_cant": "all handler behaviours", "anchors": ["src/server/mod.rs::accept_with_opts"]}
{"id": "C41", "title": "Idle timeout", "statement": "With a timeout configured, if the timer fires while the server waits for a request head accept returns Ok without writing anything or calling the handler for it; data that is already available is never lost to the timer (the request wins when both are ready).", "quantifier": "all histories and all instants at which the timer may fire", "why_tests_cant": "all schedules", "anchors": ["src/timeout.rs::TimeoutFuture::poll", "src/server/mod.rs::accept_with_opts"]}
{"id": "C42", "title": "Glitch response", "statement": "A glitch's response has the glitch's status (500 when unset), version (HTTP/1.1 when unset), its message as body, and content-type text/plain exactly overriding when the body is non-empty; other headers of the glitch are kept.", "quantifier": "all glitches", "why_tests_cant": "all inputs", "anchors": ["src/server/glitch.rs::into_inner_response"]}
{"id": "C43", "title": "Error details stay private unless verbose", "statement": "With verbose_glitch off, the response to a failing handler does not depend on the underlying error's text; with it on, the text is appended after the message.", "quantifier": "all errors, messages, statuses", "why_tests_cant": "non-interference: quantifies over pairs of errors", "anchors": ["src/server/glitch.rs::into_inner_response", "src/server/mod.rs::accept_with_opts"]}
{"id": "C44", "title": "GlitchExt conversions", "statement": "glitch, glitch_ctx and glitch_with_ctx pass successes through unchanged, turn an error/None into a glitch with exactly the given status and context, and keep the error text only in the trace.", "quantifier": "all results, options, statuses, contexts", "why_tests_cant": "all inputs", "anchors": ["src/server/glitch.rs::GlitchExt"]}
{"id": "C45", "title": "ResponseWriter setters touch only what they document", "statement": "set_status, set_body, insert_header, append_header, set_text and set_sse change exactly the documented parts of the response; insert replaces, append keeps earlier values.", "quantifier": "all responses and all sequences of setter calls", "why_tests_cant": "all sequences of calls", "anchors": ["src/server/response_writer.rs::ResponseWriter"]}
{"id": "C46", "title": "set_text sets 200 OK", "statement": "After set_text the response status is 200 OK, as documented.", "quantifier": "all prior responses", "why_tests_cant": "documented for all states", "anchors": ["src/server/response_writer.rs::ResponseWriter::set_text"]}
{"id": "C47", "title": "Non-CORS requests pass untouched", "statement": "A request without an Origin header passes validation and leaves the response unchanged.", "quantifier": "all configurations, requests, responses", "why_tests_cant": "all inputs", "anchors": ["src/server/cors.rs::Cors::validate"]}
{"id": "C48", "title": "Disallowed origins are refused and get no CORS headers", "statement": "When an origin list is configured, a request from an origin not in it is refused with 400 before the endpoint behind validate is reached, the response is left unchanged and the refusal carries no access-control headers.", "quantifier": "all configurations and requests", "why_tests_cant": "all inputs", "anchors": ["src/server/cors.rs::Cors::validate"]}
{"id": "C49", "title": "Allowed simple requests", "statement": "A non-OPTIONS request from an allowed origin passes; the response's access-control-allow-origin is exactly the request's origin, credentials are allowed exactly when configured, and all unrelated response headers are unchanged.", "quantifier": "all configurations, requests, responses", "why_tests_cant": "all inputs", "anchors": ["src/server/cors.rs::Cors::validate"]}
{"id": "C50", "title": "Preflight decision", "statement": "An OPTIONS request with an allowed origin is accepted (status 200, handler not called) exactly when its requested method is in the allowed set and every comma-separated requested header is an allowed header name (case-insensitive); otherwise it is refused with 400.", "quantifier": "all configurations and requests", "why_tests_cant": "all inputs", "anchors": ["src/server/cors.rs::Cors::validate"]}
{"id": "C51", "title": "Preflight accepts whitespace after commas", "statement": "A preflight whose requested-headers list uses optional whitespace around commas, as HTTP list syntax allows, is treated like the same list without whitespace.", "quantifier": "all lists", "why_tests_cant": "all inputs", "anchors": ["src/server/cors.rs::is_header_allowed"]}
{"id": "C52", "title": "Origin configuration", "statement": "allow_origin and allow_origins accumulate; exactly the configured origins are allowed; allow_any_origin makes every origin allowed; with nothing configured every origin is allowed and echoed, also when credentials are allowed.", "quantifier": "all sequences of builder calls", "why_tests_cant": "all histories of builder calls", "anchors": ["src/server/cors.rs::CorsBuilder"]}
{"id": "C53", "title": "Routing respects method and path", "statement": "A routed request reaches an endpoint only if that endpoint was registered for exactly the request's method and a pattern matching its path; if no registered pattern for its method matches, the answer is an empty 404.", "quantifier": "all route tables, methods and paths", "why_tests_cant": "all inputs", "anchors": ["src/server/router.rs::Router::route", "src/server/router.rs::RouterBuilder::at"]}
{"id": "C54", "title": "Routes of different methods never collide", "statement": "No request is matched by registrations for two different methods; the key a route is stored under determines its method and its path, and a path without parameters matches only itself.", "quantifier": "all methods (tokens) and all paths starting with a slash", "why_tests_cant": "all pairs", "anchors": ["src/server/router.rs::RouterBuilder::at"]}
{"id": "C55", "title": "Router data and params", "statement": "In an endpoint, data::<T>() returns the last value of type T registered with data, and None for types never registered; get_param returns the first captured value with that name.", "quantifier": "all sequences of registrations and lookups", "why_tests_cant": "all histories", "anchors": ["src/server/router.rs::RouterBuilder::data", "src/server/router.rs::RouterRequestExt"]}
{"id": "C56", "title": "Login is recognised", "statement": "A request carrying, as the only cookie, the token set by set_auth_token for user u is recognised as u until the configured expiration has passed.", "quantifier": "all keys, users, expirations, clock values", "why_tests_cant": "all inputs and instants", "anchors": ["src/server/identity.rs::Identity::{set_auth_token,authorized_user}"]}
{"id": "C57", "title": "Logout and expiry are effective", "statement": "The cookie set by forget never authorises anyone, and a token is not accepted once the clock is past its expiration.", "quantifier": "all keys, configurations, clock values after 1970", "why_tests_cant": "all instants", "anchors": ["src/server/identity.rs::Identity::{forget,authorized_user}"]}
{"id": "C58", "title": "Forged tokens are refused", "statement": "A cookie value not produced by signing with the server key never authorises anyone.", "quantifier": "all keys and cookie values (signature scheme as an oracle)", "why_tests_cant": "all inputs", "anchors": ["src/server/identity.rs::Identity::authorized_user"]}
{"id": "C59", "title": "The identity cookie is found among several cookies", "statement": "If a request's Cookie header contains the identity cookie anywhere in its list, the user is recognised.", "quantifier": "all cookie lists", "why_tests_cant": "all inputs", "anchors": ["src/server/identity.rs::get_cookie"]}
{"id": "C60", "title": "The configured issuer is checked", "statement": "A token issued under a different issuer is refused.", "quantifier": "all issuers", "why_tests_cant": "all inputs", "anchors": ["src/server/identity.rs::Identity::authorized_user"]}
{"id": "C61", "title": "Body round trip", "statement": "Body::from_bytes, from String and from &str, read back with into_bytes, give back exactly the bytes, and the declared length is their number.", "quantifier": "all byte strings and read sizes", "why_tests_cant": "all inputs", "anchors": ["src/body.rs", "src/util.rs::Cursor"]}
{"id": "C62", "title": "Reading with trailers terminates", "statement": "into_bytes_with_trailer and into_string_with_trailer complete for every body whose reader ends.", "quantifier": "all bodies: fixed-length, chunked complete, chunked truncated", "why_tests_cant": "a hang is not observable by a test", "anchors": ["src/body.rs::into_bytes_with_trailer", "src/trailers.rs"]}
{"id": "C63", "title": "Client request encoding", "statement": "connect writes exactly: request line with path and query, a host header if the caller set none, content-length, the caller's headers, blank line, body bytes; in any write schedule.", "quantifier": "all requests with a known-length body and all schedules", "why_tests_cant": "all inputs and schedules", "anchors": ["src/client/encode.rs::Encoder", "src/client/mod.rs::connect"]}
{"id": "C64", "title": "Client requests are understood by the server", "statement": "A request encoded by the client and decoded by the server yields the same method, path, query, headers and body.", "quantifier": "all requests with origin-form targets and at most 14 headers; all segmentations", "why_tests_cant": "all inputs", "anchors": ["src/client/encode.rs", "src/server/decode.rs"]}
{"id": "C65", "title": "Server responses are understood by the client", "statement": "A fixed-length response encoded by the server and decoded by the client yields the same status, headers and body.", "quantifier": "all responses with a head below 8 KiB; all segmentations", "why_tests_cant": "all inputs", "anchors": ["src/server/encode.rs", "src/client/decode.rs"]}
{"id": "C66", "title": "Chunked responses keep status and headers in the client", "statement": "A chunked response decoded by the client has the status and headers that were sent.", "quantifier": "all chunked responses", "why_tests_cant": "all inputs", "anchors": ["src/client/decode.rs::decode"]}
{"id": "C67", "title": "Client rejects ambiguous framing and oversized heads", "statement": "A response with both content-length and transfer-encoding is rejected; a response head of 8192 bytes or more is rejected; the client never buffers an unbounded head line set.", "quantifier": "all responses", "why_tests_cant": "all inputs", "anchors": ["src/client/decode.rs::decode"]}
{"id": "C68", "title": "Client sends exactly the declared length", "statement": "The body bytes connect writes after the head are exactly content-length many.", "quantifier": "all bodies", "why_tests_cant": "depends on reader vs declared length", "anchors": ["src/client/encode.rs::Encoder::poll_read"]}
{"id": "C69", "title": "Server bounds the size of a request head", "statement": "The server stops reading a request head after a bounded number of bytes.", "quantifier": "all input streams", "why_tests_cant": "unbounded input", "anchors": ["src/server/decode.rs::decode"]}
{"id": "C70", "title": "At most 16 headers", "statement": "A request with more than 16 header fields is refused with 400 and never reaches the handler.", "quantifier": "all heads", "why_tests_cant": "all inputs", "anchors": ["src/server/decode.rs::decode"]}
{"id": "C71", "title": "A failed chunked body stays failed", "statement": "After a read of a chunked body returned an error, no later read delivers body bytes or reports a successful end.", "quantifier": "all inputs, segmentations and further reads; all contents of recycled buffers", "why_tests_cant": "depends on the state left behind by the error path and on the contents of a recycled buffer", "anchors": ["src/chunked/decoder.rs::ChunkedDecoder::poll_read"]}
{"id": "C72", "title": "Malformed trailers are reported", "statement": "When the trailer section of a chunked message of at most 4096 wire bytes contains an illegal byte in a field name or value, reading the body delivers the whole payload and then reports an error, and no trailers are delivered.", "quantifier": "all payloads, trailer sections, segmentations and buffer sizes", "why_tests_cant": "all inputs and segmentations", "anchors": ["src/chunked/decoder.rs::decode_trailer"]}
{"id": "C73", "title": "A finished body leaves the connection alone", "statement": "Once a request body has reported its end, further reads report the end again and take nothing from the connection.", "quantifier": "all bodies, fixed-length and chunked; all further reads", "why_tests_cant": "depends on the decoder state after the end and on what the transport delivers next", "anchors": ["src/chunked/decoder.rs::ChunkedDecoder::poll_read"]}
{"id": "C74", "title": "The identity cookie carries the configured attributes", "statement": "The Set-Cookie header of set_auth_token has the configured cookie name, path, Secure and HttpOnly flags and the expiration as Max-Age; forget sends the same with Max-Age 0. Each setting is the newest builder call about it, and by default the cookie is jwt, for path /, Secure, HttpOnly and valid for 24 hours.", "quantifier": "all sequences of builder calls, users and responses", "why_tests_cant": "all configurations", "anchors": ["src/server/identity.rs::Identity::{set_auth_token,forget}"]}
{"id": "C75", "title": "Reading a whole request body gives exactly the body", "statement": "into_bytes on the body of a decoded request always returns; for a declared length it gives that many bytes following the head (an error if the connection breaks before them), for a well-formed chunked body that fits the decoder's buffer its payload, for a malformed one an error; into_string gives the same when it is UTF-8 and an error otherwise.", "quantifier": "all requests, segmentations, and read buffer sizes", "why_tests_cant": "all inputs, segmentations and read sizes", "anchors": ["src/body.rs::into_bytes", "src/body.rs::into_string"]}
{"id": "C76", "title": "Reading a request body as text does not panic", "statement": "into_string on the body of a decoded request returns text or an error, whatever length the peer declares.", "quantifier": "all requests", "why_tests_cant": "all declared lengths", "anchors": ["src/body.rs::into_string"]}
{"id": "C77", "title": "connect does not panic", "statement": "connect returns a response or an error for every request, transport and peer.", "quantifier": "all requests, bodies of known and unknown length, write schedules and responses", "why_tests_cant": "all inputs", "anchors": ["src/client/mod.rs::connect", "src/client/encode.rs::Encoder::encode"]}
{"id": "C78", "title": "Interim responses are not final", "statement": "The response connect returns is the final one: 1xx responses that precede it are skipped, and the status and headers are those of the final response.", "quantifier": "all responses and segmentations", "why_tests_cant": "all inputs", "anchors": ["src/client/decode.rs::decode"]}
{"id": "C79", "title": "Bodies delimited by the close are delivered", "statement": "A response with neither content-length nor transfer-encoding has as body the bytes up to the close of the connection.", "quantifier": "all responses", "why_tests_cant": "all inputs", "anchors": ["src/client/decode.rs::decode"]}
{"id": "C80", "title": "Conflicting content-lengths are rejected by the client", "statement": "A response with several differing content-length values, or a malformed one, is refused.", "quantifier": "all responses", "why_tests_cant": "all inputs", "anchors": ["src/client/decode.rs::decode"]}
{"id": "C81", "title": "The client recognises the chunked coding", "statement": "A response whose transfer-encoding is chunked, in any letter case, has the payload of the chunks as its body.", "quantifier": "all responses", "why_tests_cant": "all inputs", "anchors": ["src/client/decode.rs::decode"]}
{"id": "C82", "title": "Truncated response bodies are reported", "statement": "When the connection ends before the declared length, reading the response body reports an error; otherwise it gives exactly the declared number of bytes following the head.", "quantifier": "all responses, segmentations, failures and read sizes", "why_tests_cant": "all inputs and failures", "anchors": ["src/client/decode.rs::decode", "src/body.rs::into_bytes"]}
{"id": "C83", "title": "Responses that have no body", "statement": "The response to a HEAD request, and a response with status 204 or 304, has an empty body whatever its headers say.", "quantifier": "all requests and responses", "why_tests_cant": "all inputs", "anchors": ["src/client/mod.rs::connect", "src/client/decode.rs::decode"]}
{"id": "C84", "title": "The client's answer does not depend on segmentation", "statement": "Two connections that deliver the same bytes in different segments, with different pending polls, give the same error or the same response over the same following bytes.", "quantifier": "all responses and all pairs of segmentations", "why_tests_cant": "all segmentations", "anchors": ["src/client/decode.rs::decode"]}
{"id": "C85", "title": "The client's verdict on a response head", "statement": "The outcome of reading a response is determined by its head block: refused unless it is a grammatical HTTP/1.1 head below 8192 bytes with at most 128 fields, a status from 100 and unambiguous framing; otherwise returned with its status, its fields (with a date added when there is none) and its body, except for what C66, C80 and C81 say.", "quantifier": "all byte strings and segmentations", "why_tests_cant": "all inputs", "anchors": ["src/client/decode.rs::decode"]}
{"id": "C86", "title": "A request body sent back arrives unchanged", "statement": "A handler that answers with the body of its request (set_body(req.into_body())) sends exactly the bytes of that body: with its declared length, or as a chunked message with the same payload.", "quantifier": "all requests with a complete body, read segmentations, write schedules, statuses and response headers", "why_tests_cant": "all inputs and schedules", "anchors": ["src/server/response_writer.rs::ResponseWriter::set_body", "src/server/encode.rs", "src/body.rs"]}
{"id": "C87", "title": "Sending a request body back comes to an end", "statement": "A handler that answers with the body of its request returns from sending, with success or an error, whatever the peer sends and whenever it closes.", "quantifier": "all byte streams, close and failure points", "why_tests_cant": "termination over all inputs", "anchors": ["src/server/encode.rs::encode_fixed_body", "src/server/decode.rs", "src/chunked/decoder.rs"]}
{"id": "C88", "title": "A broken request body is not passed off as whole", "statement": "When the body of the request is cut off or malformed, sending it back reports an error and the response written so far is incomplete.", "quantifier": "all truncation points and malformed messages", "why_tests_cant": "all truncation points", "anchors": ["src/server/encode.rs", "src/chunked/encoder.rs", "src/chunked/decoder.rs"]}
{"id": "C89", "title": "A proxied response body arrives unchanged", "statement": "A handler that answers with the body of a response it received as a client sends exactly the bytes the upstream server sent.", "quantifier": "all upstream responses with a complete body, segmentations and write schedules", "why_tests_cant": "all inputs and schedules", "anchors": ["src/client/decode.rs", "src/server/encode.rs", "src/body.rs"]}
{"id": "C90", "title": "Proxying comes to an end", "statement": "A handler that answers with the body of an upstream response returns from sending, whenever the upstream connection closes or fails.", "quantifier": "all upstream byte streams, close and failure points", "why_tests_cant": "termination over all inputs", "anchors": ["src/client/decode.rs", "src/server/encode.rs::encode_fixed_body", "src/chunked/decoder.rs"]}
{"id": "C91", "title": "What a response body has produced is sent before it is waited for", "statement": "When the reader of a response body has no data yet, the head and everything the reader has produced so far (framed as chunks, or up to the declared length) has already been given to the transport, whatever the reader does later.", "quantifier": "all responses, pieces produced, later behaviours of the reader and write schedules", "why_tests_cant": "what is on the wire at a moment, for all schedules and futures of the reader", "anchors": ["src/server/encode.rs::Encoder::poll_read", "src/chunked/encoder.rs", "src/server/response_writer.rs"]}
{"id": "C92", "title": "Body data that has arrived is handed over before waiting for more", "statement": "A handler reading its request's body gets every byte of body data that has arrived, and the end of the body if that has arrived, after a bounded number of reads and before the connection is polled for more.", "quantifier": "all requests, cut-off points of the message, segmentations and read sizes, and everything the peer does later", "why_tests_cant": "all segmentations and futures of the connection", "anchors": ["src/chunked/decoder.rs::ChunkedDecoder::poll_read", "src/server/decode.rs"]}
{"id": "C93", "title": "No lost wakeups", "statement": "A read of a request body, and a poll of the response encoder, reports Pending only if the connection (or the response body's reader) answered Pending in that same call, as its last answer, so the task is woken.", "quantifier": "all requests, bodies, decoder and encoder states reached and read sizes", "why_tests_cant": "all states and schedules", "anchors": ["src/chunked/decoder.rs::ChunkedDecoder::poll_read", "src/server/encode.rs::Encoder::poll_read"]}
{"id": "C94", "title": "The decoder's memory limit", "statement": "While decoding a chunked body the decoder never holds more than 512 MiB; a chunk size line too long for it is reported as an error, never as the end of the body.", "quantifier": "all inputs, segmentations and read sizes, and all growth policies of the buffer (bounded part)", "why_tests_cant": "inputs of half a gigabyte and all growth policies", "anchors": ["src/chunked/decoder.rs::ChunkedDecoder::poll_read", "src/chunked/decoder.rs::decode_init"]}
{"id": "C95", "title": "Requests are answered as they arrive", "statement": "Once a request has arrived completely and its handler has answered, the whole answer has been given to the transport, whatever the peer sends later and whether or not it closes: a client that waits for each answer before its next request always gets it, and later input never changes what was answered.", "quantifier": "all sequences of requests with complete bodies, all continuations of the input stream and write schedules", "why_tests_cant": "all futures of the connection", "anchors": ["src/server/mod.rs::accept", "src/server/decode.rs::decode", "src/server/encode.rs"]}
{"id": "C96", "title": "Answers that must not have a body", "statement": "The answer to a HEAD request, and a response with status 204 or 304, is sent without body bytes whatever body the handler gave it.", "quantifier": "all requests, statuses and bodies", "why_tests_cant": "all inputs", "anchors": ["src/server/encode.rs::Encoder::start", "src/server/response_writer.rs::InnerResponse::send"]}
{"id": "C97", "title": "Connection: close is honoured", "statement": "After the answer to a request with the header connection: close the server reads no further request from that connection.", "quantifier": "all requests and continuations of the connection", "why_tests_cant": "all inputs", "anchors": ["src/server/mod.rs::accept", "src/server/decode.rs::decode"]}
{"id": "C98", "title": "More than one Host header is refused", "statement": "A request with several Host headers is answered 400 and its handler is not called.", "quantifier": "all requests", "why_tests_cant": "all inputs", "anchors": ["src/server/decode.rs::decode"]}
{"id": "C99", "title": "CORS answers say that they depend on the origin", "statement": "A response to which Cors adds the requesting origin carries vary: origin, so that a cache does not serve it to another origin.", "quantifier": "all configurations, requests and responses", "why_tests_cant": "all configurations", "anchors": ["src/server/cors.rs::Cors::validate"]}
{"id": "C100", "title": "No input makes the server panic", "statement": "Whatever bytes arrive on a connection, in whatever segments and with whatever failures, accept does not panic.", "quantifier": "all byte streams, segmentations, failures, write schedules and handlers", "why_tests_cant": "all hostile inputs", "anchors": ["src/server/mod.rs::accept", "src/server/decode.rs", "src/chunked/decoder.rs", "src/server/encode.rs"]}
{"id": "C101", "title": "accept returns once the peer has closed", "statement": "When the peer closes the connection, after whatever it has sent and however the transport takes what is written, accept returns: Ok, or the error for an unsupported transfer encoding.", "quantifier": "all byte streams, segmentations, finitely many failures, write schedules, and handlers that stop reading at the end or the first error of a body and send bodies of the declared length", "why_tests_cant": "termination over all inputs and schedules", "anchors": ["src/server/mod.rs::accept", "src/server/decode.rs", "src/chunked/decoder.rs", "src/server/encode.rs"]}
{"id": "C102", "title": "Calls from tophat's client to tophat's server", "statement": "When the client sends requests over a connection served by accept, the handlers are given exactly those requests and bodies, in order; the server answers each with its handler's response, taking nothing from the connection behind the last request; and each call returns the status, the headers and the body of its own response.", "quantifier": "all sequences of requests, handlers' responses, segmentations and write schedules on both sides", "why_tests_cant": "two programs on unbounded sessions and all schedules", "anchors": ["src/client/encode.rs", "src/client/decode.rs", "src/client/mod.rs", "src/server/mod.rs::accept", "src/server/decode.rs", "src/server/encode.rs"]}
{"id": "C103", "title": "The client hands over what has arrived", "statement": "connect returns the response once its head has arrived, taking nothing from the connection that comes later; reading the body then gives every byte of body data that has arrived, and its end, after a bounded number of reads and before the connection is polled for more; a read reports Pending only if the connection did in that same call.", "quantifier": "all responses, cut-off points, segmentations and read sizes, and everything the server does later", "why_tests_cant": "all segmentations and futures of the connection", "anchors": ["src/client/decode.rs", "src/chunked/decoder.rs::ChunkedDecoder::poll_read"]}
{"id": "C104", "title": "The client sends what its request body has produced", "statement": "When the body of a request has no data yet, the client has already given the head and everything the body has produced to the transport, whatever the body or the peer do later; the encoder reports Pending only if the body did in that same call and the head has been passed on.", "quantifier": "all requests, pieces produced, later behaviours of the body and of the peer, and write schedules", "why_tests_cant": "what is on the wire at a moment, for all schedules and futures", "anchors": ["src/client/encode.rs::Encoder::poll_read", "src/client/mod.rs"]}
{"id": "C105", "title": "Event streams", "statement": "A response given a stream with set_sse is sent as text/event-stream in chunks that carry the stream's events in order and nothing else; each event is on the wire before the stream is waited on for the next; the body is ended exactly when the stream ends, and a stream that fails leaves it cut off.", "quantifier": "all streams (finite, with waits and errors anywhere), prior responses and write schedules; for completeness at least one byte of events", "why_tests_cant": "all streams, schedules and futures of the stream", "anchors": ["src/server/response_writer.rs::ResponseWriter::set_sse", "src/server/encode.rs", "src/chunked/encoder.rs"]}
{"id": "C106", "title": "Names, values and header maps", "statement": "Header names are non-empty tokens of at most 65535 bytes and compare without regard to the case of ASCII letters; methods are non-empty tokens and keep their case; values hold no control characters but tabs. Appending a header adds its value behind those of its name, inserting replaces them, and neither touches any other name.", "quantifier": "all byte strings, header maps and sequences of operations", "why_tests_cant": "all names, values and spellings", "anchors": ["src/server/decode.rs::decode", "src/server/response_writer.rs::ResponseWriter::append_header", "src/server/encode.rs"]}
{"id": "C107", "title": "Request targets", "statement": "A request whose target begins with a slash reaches the handler with the path up to the first question mark, the query behind it and without the fragment; if the target has characters that neither may hold, or is longer than 65534 bytes, it is refused with 400 and the handler is not called.", "quantifier": "all requests, targets, segmentations and write schedules", "why_tests_cant": "all targets", "anchors": ["src/server/decode.rs::decode"]}
{"id": "C108", "title": "Status lines", "statement": "The status line of every response consists of the version, the status code in decimal and the phrase registered for the code.", "quantifier": "all responses: versions, status codes, headers and bodies", "why_tests_cant": "all codes, on the wire", "anchors": ["src/server/encode.rs::encode"]}
{"id": "C109", "title": "Responses are flushed", "statement": "A response that was sent has been flushed. On a connection that does not fail, the server neither waits for the next request nor ends the connection while anything it wrote is still in the transport's buffers: interim responses, error responses and what was written of responses whose body failed included.", "quantifier": "all requests, handlers (whose glitches have legal headers), bodies and write schedules", "why_tests_cant": "all interleavings of writing, failing and flushing", "anchors": ["src/server/response_writer.rs::InnerResponse::send", "src/server/mod.rs::accept", "src/server/decode.rs"]}
{"id": "C110", "title": "The interim response is flushed", "statement": "When a request that expects 100-continue is given to the handler, the interim response has been flushed, so that the client behind a buffering transport goes on to send its body.", "quantifier": "all requests with the expectation and write schedules", "why_tests_cant": "needs a transport that buffers", "anchors": ["src/server/decode.rs::handle_100_continue"]}
{"id": "C111", "title": "Streamed data is flushed", "statement": "When the body of a response has no data yet, everything it has produced so far has been flushed.", "quantifier": "all bodies and streams, moments and write schedules", "why_tests_cant": "needs a transport that buffers and a body that waits", "anchors": ["src/server/response_writer.rs::InnerResponse::send", "src/server/encode.rs"]}
{"id": "C112", "title": "The client's request is flushed", "statement": "connect does not wait for the response while anything of the request is still in the transport's buffers.", "quantifier": "all requests, bodies and write schedules", "why_tests_cant": "needs a transport that buffers", "anchors": ["src/client/mod.rs"]}
{"id": "C113", "title": "Answers that hand the request's body on", "statement": "On a connection where each request arrives in transport segments of its own and each handler either reads its request's body and answers, or answers with that body (set_body(req.into_body())), the connection carries exactly the responses due, in order; a body handed on is the request's, with its declared length or as chunks with the same payload, and the next request is read from directly behind it.", "quantifier": "all conversations of any length, segmentations and write schedules", "why_tests_cant": "needs arbitrarily long conversations whose responses are produced while their requests are read", "anchors": ["src/server/mod.rs", "src/server/response_writer.rs", "src/server/encode.rs", "src/server/decode.rs"]}
{"id": "C114", "title": "Nothing follows a response that could not be completed", "statement": "When the body of a response fails after part of it has been written, the client does not get bytes of another response in place of the missing ones.", "quantifier": "all responses, handlers and write schedules", "why_tests_cant": "needs a body that fails at an arbitrary point and a peer that goes on reading", "anchors": ["src/server/mod.rs", "src/server/encode.rs", "src/chunked/encoder.rs"]}
{"id": "C115", "title": "Clients that stall are cut off", "statement": "With a timeout configured, a connection whose client stops sending in the middle of a request is ended when the time has passed.", "quantifier": "all requests and moments at which the client stops", "why_tests_cant": "needs a client that stops at an arbitrary point, and all times", "anchors": ["src/server/mod.rs::accept", "src/server/decode.rs", "src/timeout.rs"]}
{"id": "C116", "title": "Broken field lines are refused", "statement": "A message whose head holds a line that is not a field - a blank before the colon, a continuation line, a missing name or colon, a carriage return or another control character in a value - is not interpreted: the server answers it 400 without calling the handler, the client returns an error.", "quantifier": "all heads with any number of fields before and any bytes after the line, all segmentations", "why_tests_cant": "all positions and bytes; smuggling attempts use the ones no test thought of", "anchors": ["src/server/decode.rs::decode", "src/client/decode.rs::decode"]}
{"id": "C117", "title": "A connection can be used for one call after another", "statement": "Calls of the client made one after the other on the same transport are each answered by the response to their own request, whatever the caller does with the bodies of the responses before.", "quantifier": "all numbers of calls, all requests and responses, all segmentations", "why_tests_cant": "sequences of messages of any length; whether a part of one is left for the next depends on the pieces they arrive in", "anchors": ["src/client/mod.rs::connect", "src/client/decode.rs::decode"]}
{"id": "C118", "title": "A response means that the request was sent", "statement": "connect returns a response only if it has written its whole request and the reader of the request's body has ended without an error; when that reader or the transport fails, it returns an error, even if a response has arrived.", "quantifier": "all requests, body readers, write schedules and responses", "why_tests_cant": "a failure may hit at any byte, with any answer already waiting", "anchors": ["src/client/mod.rs::connect", "src/client/encode.rs::Encoder"]}
{"id": "C119", "title": "An error of the handler is reported whatever came before", "statement": "When a handler ends with an error, the response of that error is written after whatever the handler has written before (a response cut short because its body failed, a complete response, or a request body handed on), and the connection goes on.", "quantifier": "all requests, handlers, responses and accepting write schedules", "why_tests_cant": "needs handlers that fail at every possible point of sending and after it", "anchors": ["src/server/mod.rs", "src/server/response_writer.rs", "src/server/glitch.rs"]}
{"id": "C120", "title": "Bytes of other connections do not leak into a body", "statement": "What is delivered from a body, written on a connection, taken from it and the way it ends depend on what arrived on that connection only, not on what other connections have left in the decoder's recycled buffers.", "quantifier": "all byte streams, segmentations, read sizes, handlers and contents of recycled buffers", "why_tests_cant": "compares two executions that differ in memory no test controls", "anchors": ["src/chunked/decoder.rs", "src/server/mod.rs", "src/body.rs"]}
{"id": "C121", "title": "A chunked body cut off by a failing connection is an error", "statement": "When the connection fails before the last byte of a chunked body has come, whoever reads the body gets the chunk data that has come and then an error, never the end: a handler's reads, into_bytes and its kin, sending the body on, and the same for the body of a response the client receives.", "quantifier": "all chunked messages, points of failure, segmentations, pauses and read sizes", "why_tests_cant": "every byte of a message is a point of failure, in combination with every segmentation and read size", "anchors": ["src/chunked/decoder.rs", "src/server/mod.rs", "src/body.rs"]}
{"id": "C122", "title": "Trailers vouch for the body they came with", "statement": "Whatever bytes arrive, a chunked body delivers chunk data of what came and nothing else, and its trailers are sent at most once, only when a complete message has arrived and all of its data has been delivered. So when into_bytes_with_trailer or into_string_with_trailer succeeds on the body of a request or of a response the client receives, the bytes returned are the whole body the peer sent, and the trailers are the peer's, even though a plain read of a body cut off by the peer ends without an error.", "quantifier": "all inputs, well-formed or not, of any size, cut off anywhere, with any failures, segmentations, pauses and read sizes", "why_tests_cant": "about arbitrary input, and about what a success implies rather than what an input leads to", "anchors": ["src/chunked/decoder.rs", "src/body.rs", "src/server/decode.rs", "src/client/decode.rs"]}
{"id": "C123", "title": "A well-formed chunked body is never reported as broken", "statement": "When the peer sends a well-formed chunked body (any number of chunks of any sizes, up to 16 trailers, no size line and no trailer section within 1 KiB of 512 MiB) over a connection that does not fail, reading it never returns an error, never panics and comes to an end: into_bytes succeeds, with the body or a beginning of it, and into_bytes_with_trailer succeeds with the whole body and the peer's trailers or does not return. This holds for the body of a request and of a response the client receives, also where the body is delivered short.", "quantifier": "all messages up to the limits, segmentations, pauses, buffer contents left behind, and read sizes", "why_tests_cant": "excludes an error for every message and segmentation, including messages of hundreds of megabytes", "anchors": ["src/chunked/decoder.rs", "src/body.rs", "src/server/decode.rs", "src/client/decode.rs"]}
{"id": "C124", "title": "Buffered reading of a body agrees with plain reading", "statement": "A body can be read through AsyncRead, through AsyncBufRead (fill_buf and consume), or both in any order. Whatever the mixture, the bytes obtained, the end or the error, and the state in which the body is then are those of some sequence of plain reads: nothing is lost or delivered twice by looking at bytes without consuming them, by consuming a part, or by reading between a look and the next. In particular a complete body is delivered in order and whole, with the trailers after it. This holds for the bodies of requests, of responses the client receives, and for the program's own.", "quantifier": "all bodies, sequences of reads and looks, amounts consumed, segmentations and failures of the connection", "why_tests_cant": "sequences of mixed calls are unbounded and each layer (BufReader, Take, the chunk decoder, the sender of trailers) buffers differently", "anchors": ["src/body.rs", "src/server/decode.rs", "src/chunked/decoder.rs", "src/client/decode.rs"]}
{"id": "C125", "title": "Reading a body line by line gives its lines", "statement": "Reading a complete body with read_until or lines (AsyncBufReadExt) gives its lines, each with the LF that ends it, the last without one if the body does not end with LF, and nothing else; it succeeds when the body arrived, and takes nothing that follows the body on the connection.", "quantifier": "all bodies, segmentations and pauses", "why_tests_cant": "line ends fall anywhere relative to segments and chunks; the fault found needs a failure or a further request right behind the body", "anchors": ["src/body.rs", "src/server/decode.rs", "src/chunked/decoder.rs"]}
{"id": "C126", "title": "A forwarded request carries the body it came with", "statement": "When a handler gives the body of the request it received to the client (connect), as a proxy does, what is written is the head due and exactly the body received; the next server obtains the same body; and if the body does not arrive in full, connect returns an error instead of a response.", "quantifier": "all received requests, new heads, segmentations and pauses on either connection", "why_tests_cant": "three connections interleave: the one the body comes from, the one it goes to, and the reader of the next server; the faults found need a chunked body, or a peer that closes in the middle", "anchors": ["src/client/encode.rs", "src/client/mod.rs", "src/body.rs", "src/server/decode.rs"]}
{"id": "C127", "title": "A client behind a proxy gets the answer of the server behind it", "statement": "When a handler answers with the status and the body that connect returned to it, a client that reads the answer obtains the status and the body which the server behind the proxy has sent, and the fields the handler set.", "quantifier": "all answers of the server behind, fields set by the proxy, segmentations and pauses on both connections", "why_tests_cant": "two decoders, two encoders and two connections are in play, each free to split the body elsewhere; the fault found needs a chunked answer with a status other than 200", "anchors": ["src/client/mod.rs", "src/client/decode.rs", "src/server/encode.rs", "src/body.rs"]}
{"id": "C128", "title": "A received body sent on under another length", "statement": "A handler may answer with Body::from_reader(req.into_body(), len). With Some(k) the response declares k bytes and carries the first k bytes of the request's payload, however the request framed it; with None it carries the whole payload as chunks; if the payload has fewer than k bytes the send returns an error.", "quantifier": "all requests, payloads, framings, lengths, segmentations and pauses", "why_tests_cant": "the request's framing and the response's are independent, and reading and writing interleave in any way; the fault found is a send that never returns", "anchors": ["src/body.rs", "src/server/encode.rs", "src/chunked/encoder.rs", "src/server/decode.rs"]}
{"id": "C129", "title": "The error of a failed call says what went wrong", "statement": "When connect returns an error, its text names the reason: which part of the address is missing (nothing was written then); that the request could not be written; or, when it was written whole, what was wrong with the answer. In particular 'Empty response' means that the server closed without sending anything.", "quantifier": "all requests, bodies, answers, write schedules and segmentations", "why_tests_cant": "the reason depends on where in the answer the connection ends or fails, and on every field of the head; the fault found needs a server that closes in the middle of a head", "anchors": ["src/client/encode.rs", "src/client/decode.rs", "src/client/mod.rs", "src/client/error.rs"]}
{"id": "C130", "title": "Whatever a peer sends, the server writes answers to what has arrived", "statement": "Whatever bytes arrive on a connection, and whatever errors occur on it, everything accept writes belongs to an answer to a request head that has arrived: for each head the refusal due by its text, or the response a handler decided on when it was called with this head; in the order of the heads, at most one for each, preceded by 100 Continue only where the head asks for it; each in full before the next begins, and all in full once accept returns. (For handlers that do not fail after sending and whose responses can be sent, on a connection that takes what is written.)", "quantifier": "all byte sequences, segmentations, pauses, i/o errors, numbers of requests, options and such handlers", "why_tests_cant": "the input is arbitrary, so neither the number of requests nor where they begin is known in advance; a test can only look at chosen conversations", "anchors": ["src/server/mod.rs", "src/server/decode.rs", "src/server/encode.rs", "src/server/response_writer.rs", "src/server/glitch.rs"]}
{"id": "C131", "title": "The answers do not depend on how the requests are cut into segments", "statement": "Two connections on which the same bytes arrive, with the same handlers, carry the same bytes in return and end the same way, however the bytes are cut into transport segments, with whatever pauses between them (short of a timeout) and whatever pieces the answers are written in.", "quantifier": "all conversations, pairs of segmentations, pauses, writers, options and handlers that read their request's body", "why_tests_cant": "a test compares a few segmentations; their number grows exponentially with the bytes, and the buffers make the code take different paths for each", "anchors": ["src/server/mod.rs", "src/server/decode.rs", "src/chunked/decoder.rs", "src/server/encode.rs"]}
{"id": "C132", "title": "A Cors configuration written into the fields means what the fields say", "statement": "CorsBuilder's fields are public. Whatever values of their types a program puts in them, with or without calling the builder's methods, an origin outside the origins field is refused with 400, a request other than OPTIONS from one inside it (or from any, when the field is None) passes with the access-control headers the fields describe, and a preflight is granted exactly when the method and every header it asks for are in the fields, the grant listing all of them; builder calls can make the same configuration, so C47-C52 hold for it.", "quantifier": "all values of the fields, iteration orders of the sets, requests and responses", "why_tests_cant": "the sets are unbounded, their iteration order differs from run to run, and origins that no builder call can name (null) can be put in the field", "anchors": ["src/server/cors.rs"]}
{"id": "C133", "title": "A release build does what a debug build does", "statement": "Where a debug build (arithmetic overflow and debug assertions panic) does not panic, a release build of the same program (arithmetic wraps, assertions are left out) behaves identically: on every connection accept reads and writes the same bytes and ends the same way, every send and every token issued comes out the same, and reading bodies and making requests do not depend on the build at all.", "quantifier": "all connections, handlers, responses, readers, writers, options, clocks and users", "why_tests_cant": "tests run in debug builds and servers in release builds; no number of runs in one shows what the other does", "anchors": ["src/server/encode.rs", "src/chunked/encoder.rs", "src/server/mod.rs", "src/server/identity.rs"]}
