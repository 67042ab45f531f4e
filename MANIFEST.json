{
 "claims": [
  {
   "property": "C01",
   "status": "proved",
   "theorems": [
    "C01_fixed_exact"
   ],
   "note": "declared length below 2^64 minus the copy buffer (beyond that: C08)"
  },
  {
   "property": "C02",
   "status": "proved",
   "theorems": [
    "C02_chunked_exact"
   ],
   "note": "copy buffer of at least 7 bytes (the crate's: 8192); head lengths outside the panic window of C08 when the body is empty"
  },
  {
   "property": "C03",
   "status": "proved",
   "theorems": [
    "C03_one_framing_header"
   ],
   "note": "read off the wire image by an independent head reader"
  },
  {
   "property": "C04",
   "status": "proved",
   "theorems": [
    "C04_head_integrity"
   ],
   "note": "read off the wire image by an independent head reader, with arbitrary bytes following"
  },
  {
   "property": "C05",
   "status": "proved",
   "theorems": [
    "C05_date_once"
   ],
   "note": ""
  },
  {
   "property": "C06",
   "status": "proved",
   "theorems": [
    "C06_default_content_type"
   ],
   "note": ""
  },
  {
   "property": "C07",
   "status": "partial",
   "theorems": [
    "C07_terminates_refuted",
    "C07_short_body_never_ends",
    "C07_terminates_partial"
   ],
   "note": "false as stated: a reader that ends before the declared length makes encode_fixed_body recurse for ever (server/encode.rs:140-185); termination proved in all other cases, non-termination proved in exactly this one"
  },
  {
   "property": "C08",
   "status": "partial",
   "theorems": [
    "C08_no_panic_refuted",
    "C08_no_panic_length_refuted",
    "C08_no_panic_partial",
    "C08_empty_panics",
    "C08_length_panics",
    "C08_profiles_refuted"
   ],
   "note": "false as stated: empty chunked body when the head leaves 3 or 4 bytes in the copy buffer (chunked/encoder.rs:199-245), and lengths near usize::MAX (server/encode.rs:159; exactly which in release builds); no panic proved in all other cases"
  },
  {
   "property": "C09",
   "status": "proved",
   "theorems": [
    "C09_read_failure_fixed",
    "C09_read_failure_chunked"
   ],
   "note": ""
  },
  {
   "property": "C10",
   "status": "proved",
   "theorems": [
    "C10_write_failure_fixed",
    "C10_write_failure_chunked"
   ],
   "note": ""
  },
  {
   "property": "C11",
   "status": "proved",
   "theorems": [
    "C11_prefix_of_payload"
   ],
   "note": "any message size; also when reading on after the end"
  },
  {
   "property": "C12",
   "status": "proved",
   "theorems": [
    "C12_complete_small"
   ],
   "note": ""
  },
  {
   "property": "C13",
   "status": "partial",
   "theorems": [
    "C13_complete_refuted",
    "C13_complete_partial"
   ],
   "note": "false as stated: a framing element straddling the end of the 4096-byte buffer is taken for the end of the body (460 chunks of 4 bytes end after 455); proved for any number of chunks of any size as long as framing and the data of chunks below 4096 bytes fit the buffer"
  },
  {
   "property": "C14",
   "status": "partial",
   "theorems": [
    "C14_malformed_refuted",
    "C14_malformed_partial",
    "C14_nothing_after"
   ],
   "note": "false as stated: a size line without digits counts as the final chunk; proved for every other malformation within the buffer; nothing after the malformation is delivered, whatever the size"
  },
  {
   "property": "C15",
   "status": "proved",
   "theorems": [
    "C15_trailers"
   ],
   "note": "under the size condition of C13"
  },
  {
   "property": "C16",
   "status": "partial",
   "theorems": [
    "C16_truncation_refuted",
    "C16_truncation_silent"
   ],
   "note": "false as stated; proved instead that every truncation is silent"
  },
  {
   "property": "C18",
   "status": "proved",
   "theorems": [
    "C18_progress",
    "C18_reading_ends"
   ],
   "note": ""
  },
  {
   "property": "C19",
   "status": "partial",
   "theorems": [
    "C19_no_panic_refuted",
    "C19_no_panic_partial"
   ],
   "note": "false as stated: reading on after an error may panic; no panic up to and including the first error, nor after the end"
  },
  {
   "property": "C20",
   "status": "proved",
   "theorems": [
    "C20_round_trip"
   ],
   "note": ""
  },
  {
   "property": "C71",
   "status": "partial",
   "theorems": [
    "C71_sticky_error_refuted",
    "C71_sticky_end_partial"
   ],
   "note": "false as stated: stale bytes of a recycled buffer are delivered; the end of a well-formed message is sticky"
  },
  {
   "property": "C72",
   "status": "proved",
   "theorems": [
    "C72_bad_trailers"
   ],
   "note": ""
  },
  {
   "property": "C17",
   "status": "partial",
   "theorems": [
    "C17_truncation_refuted",
    "C17_broken_connection_partial"
   ],
   "note": "false as stated: after an orderly close a short body ends successfully; a broken connection is reported"
  },
  {
   "property": "C21",
   "status": "proved",
   "theorems": [
    "C21_segmentation"
   ],
   "note": ""
  },
  {
   "property": "C22",
   "status": "proved",
   "theorems": [
    "C22_fixed_body"
   ],
   "note": "a body cut short by the peer ends early, see C17"
  },
  {
   "property": "C23",
   "status": "proved",
   "theorems": [
    "C23_no_host",
    "C23_with_host"
   ],
   "note": "400 unless the request also has the fault of C24 (505) or C25 (501)"
  },
  {
   "property": "C24",
   "status": "proved",
   "theorems": [
    "C24_http10"
   ],
   "note": ""
  },
  {
   "property": "C25",
   "status": "proved",
   "theorems": [
    "C25_encoding"
   ],
   "note": ""
  },
  {
   "property": "C26",
   "status": "partial",
   "theorems": [
    "C26_signed_length_refuted",
    "C26_bad_length_partial"
   ],
   "note": "false as stated for one form: a plus sign is accepted; proved for every other invalid value"
  },
  {
   "property": "C27",
   "status": "partial",
   "theorems": [
    "C27_duplicate_length_refuted",
    "C28_framing"
   ],
   "note": "false as stated: the last length wins"
  },
  {
   "property": "C28",
   "status": "proved",
   "theorems": [
    "C28_framing",
    "C28_chunked_body"
   ],
   "note": ""
  },
  {
   "property": "C29",
   "status": "proved",
   "theorems": [
    "C29_headers"
   ],
   "note": ""
  },
  {
   "property": "C30",
   "status": "proved",
   "theorems": [
    "C30_interim"
   ],
   "note": ""
  },
  {
   "property": "C31",
   "status": "partial",
   "theorems": [
    "C31_skipped_refuted",
    "C31_strict_partial",
    "C31_dropped_partial"
   ],
   "note": "false as stated: with bare line feeds bytes behind the head are dropped; proved for heads with CRLF line ends; for all heads, exactly which bytes are dropped"
  },
  {
   "property": "C69",
   "status": "partial",
   "theorems": [
    "C69_head_unbounded_refuted"
   ],
   "note": "false: for every bound a longer head is read and accepted"
  },
  {
   "property": "C70",
   "status": "proved",
   "theorems": [
    "C70_too_many_fields"
   ],
   "note": ""
  },
  {
   "property": "C73",
   "status": "partial",
   "theorems": [
    "C73_read_after_end_refuted",
    "C73_fixed_partial"
   ],
   "note": "false for chunked bodies; proved for fixed-length bodies"
  },
  {
   "property": "C32",
   "status": "proved",
   "theorems": [
    "C32_conversation"
   ],
   "note": "conversations of any length, each request in segments of its own"
  },
  {
   "property": "C33",
   "status": "partial",
   "theorems": [
    "C33_pipelined_refuted",
    "C33_lost",
    "C33_own_segments_partial"
   ],
   "note": "false as stated: whatever shares a segment with an earlier request, behind it, has no effect at all; proved when every request comes in its own segments"
  },
  {
   "property": "C34",
   "status": "partial",
   "theorems": [
    "C34_body_as_request_refuted",
    "C34_one_segment_partial",
    "C34_body_read_partial"
   ],
   "note": "false as stated: an unread body in a segment of its own is taken for a request; proved for bodies that arrive with the head and for handlers that read the body"
  },
  {
   "property": "C35",
   "status": "proved",
   "theorems": [
    "C35_close"
   ],
   "note": ""
  },
  {
   "property": "C36",
   "status": "proved",
   "theorems": [
    "C36_goes_on"
   ],
   "note": ""
  },
  {
   "property": "C37",
   "status": "partial",
   "theorems": [
    "C37_broken_refuted",
    "C37_ends_partial",
    "C37_error_partial"
   ],
   "note": "false as stated: on a persistently failing connection accept loops for ever; proved: bounded number of turns when the input ends, single errors are survived"
  },
  {
   "property": "C38",
   "status": "proved",
   "theorems": [
    "C38_error"
   ],
   "note": ""
  },
  {
   "property": "C39",
   "status": "proved",
   "theorems": [
    "C39_glitch",
    "C39_answered"
   ],
   "note": ""
  },
  {
   "property": "C40",
   "status": "partial",
   "theorems": [
    "C40_second_response_refuted",
    "C40_one_response_partial"
   ],
   "note": "false as stated: a handler that fails after sending causes a second response; proved for handlers that do not"
  },
  {
   "property": "C41",
   "status": "proved",
   "theorems": [
    "C41_timeout",
    "C41_default",
    "C41_in_time",
    "C41_race"
   ],
   "note": ""
  },
  {
   "property": "C42",
   "status": "proved",
   "theorems": [
    "C42_response",
    "C42_sent",
    "C42_built",
    "C42_made"
   ],
   "note": ""
  },
  {
   "property": "C43",
   "status": "proved",
   "theorems": [
    "C43_private",
    "C43_default",
    "C43_errors",
    "C43_verbose"
   ],
   "note": ""
  },
  {
   "property": "C44",
   "status": "proved",
   "theorems": [
    "C44_results",
    "C44_options",
    "C44_wire"
   ],
   "note": ""
  },
  {
   "property": "C45",
   "status": "proved",
   "theorems": [
    "C45_calls",
    "C45_panics",
    "C45_wire",
    "C45_fresh",
    "C45_send_code"
   ],
   "note": "every sequence of writer calls: the response holds the latest status, version and body, header fields as last inserted plus later appends; a call panics exactly for invalid header names/values; on the wire the same"
  },
  {
   "property": "C46",
   "status": "partial",
   "theorems": [
    "C46_text_ok_refuted",
    "C46_text_ok_partial"
   ],
   "note": "false as stated: set_text does not set the status to 200; content-type, body and everything else about set_text are proved, with the status left as it was"
  },
  {
   "property": "C47",
   "status": "proved",
   "theorems": [
    "C47_not_cors",
    "C47_endpoint"
   ],
   "note": "the endpoint behind Cors sees a fresh response"
  },
  {
   "property": "C48",
   "status": "proved",
   "theorems": [
    "C48_refused",
    "C48_endpoint",
    "C48_wire",
    "C48_connection"
   ],
   "note": "origins compared as bytes, configured origins normalised by the headers crate (oracle)"
  },
  {
   "property": "C49",
   "status": "proved",
   "theorems": [
    "C49_simple",
    "C49_connection"
   ],
   "note": "also exposes exactly the configured headers"
  },
  {
   "property": "C50",
   "status": "proved",
   "theorems": [
    "C50_preflight",
    "C50_endpoint",
    "C50_wire",
    "C50_connection"
   ],
   "note": "list split at bare commas (see C51)"
  },
  {
   "property": "C51",
   "status": "partial",
   "theorems": [
    "C51_whitespace_refuted",
    "C51_whitespace_partial"
   ],
   "note": "false as stated: a list with a space after a comma is refused; proved that any whitespace in the list means refusal for every configuration"
  },
  {
   "property": "C52",
   "status": "proved",
   "theorems": [
    "C52_origins",
    "C52_accumulate",
    "C52_any",
    "C52_default"
   ],
   "note": "includes that with nothing configured every origin is echoed together with allow-credentials"
  },
  {
   "property": "C53",
   "status": "partial",
   "theorems": [
    "C53_star_method_refuted",
    "C53_no_slash_refuted",
    "C53_routed_partial",
    "C53_not_found_partial",
    "C53_wire_partial"
   ],
   "note": "false as stated for methods containing a star and for paths that do not begin with a slash (method and path form one pattern); proved for all other registrations, against path-tree's documented contract (soundness only)"
  },
  {
   "property": "C54",
   "status": "proved",
   "theorems": [
    "C54_keys",
    "C54_methods",
    "C54_literals"
   ],
   "note": "C54_methods for methods without a star (see C53)"
  },
  {
   "property": "C55",
   "status": "proved",
   "theorems": [
    "C55_endpoint",
    "C55_connection"
   ],
   "note": "wrapped_data::<Data<T>> counts like data::<T>; also nested routers: outer data stays visible when the inner router has none"
  },
  {
   "property": "C56",
   "status": "proved",
   "theorems": [
    "C56_login",
    "C56_sets",
    "C56_wire"
   ],
   "note": "the signature scheme is an oracle with a stated contract; clock below 2^63 seconds, cookie name a token"
  },
  {
   "property": "C57",
   "status": "proved",
   "theorems": [
    "C57_forget",
    "C57_forgets",
    "C57_expiry",
    "C57_never_expired",
    "C57_wire"
   ],
   "note": "signature scheme as in C56"
  },
  {
   "property": "C58",
   "status": "proved",
   "theorems": [
    "C58_forged"
   ],
   "note": "signature scheme as in C56: verification accepts exactly the tokens made with the key"
  },
  {
   "property": "C59",
   "status": "partial",
   "theorems": [
    "C59_second_cookie_refuted",
    "C59_first_cookie_partial"
   ],
   "note": "false as stated: only the first cookie of each Cookie header is read; proved exactly when a request is recognised"
  },
  {
   "property": "C60",
   "status": "partial",
   "theorems": [
    "C60_issuer_refuted",
    "C60_issuer_partial"
   ],
   "note": "false as stated: the issuer is not checked; proved that it has no influence and that it is written into the tokens"
  },
  {
   "property": "C74",
   "status": "proved",
   "theorems": [
    "C74_attributes",
    "C74_forget",
    "C74_builder"
   ],
   "note": "attributes in any order"
  },
  {
   "property": "C61",
   "status": "proved",
   "theorems": [
    "C61_round_trip",
    "C61_reader"
   ],
   "note": "also for bodies over a caller's reader, and as text"
  },
  {
   "property": "C62",
   "status": "partial",
   "theorems": [
    "C62_returns_refuted",
    "C62_fixed_hangs",
    "C62_own_hangs",
    "C62_truncated_hangs",
    "C62_complete_partial",
    "C62_taken_partial"
   ],
   "note": "false as stated: never returns for any body of declared length nor for a truncated chunked body; proved for complete chunked bodies and for bodies whose sender was taken and dropped"
  },
  {
   "property": "C75",
   "status": "proved",
   "theorems": [
    "C75_fixed",
    "C75_chunked",
    "C75_returns"
   ],
   "note": "chunked messages as far as they fit the decoder's buffer (C13, C14)"
  },
  {
   "property": "C76",
   "status": "partial",
   "theorems": [
    "C76_text_panic_refuted",
    "C76_text_partial",
    "C76_huge_panics"
   ],
   "note": "false as stated: a declared length above isize::MAX panics; proved for all others"
  },
  {
   "property": "C63",
   "status": "proved",
   "theorems": [
    "C63_written",
    "C63_unaddressed"
   ],
   "note": "any write schedule; bodies of unknown length are C77"
  },
  {
   "property": "C64",
   "status": "partial",
   "theorems": [
    "C64_blanks_refuted",
    "C64_framing_refuted",
    "C64_trip_partial"
   ],
   "note": "false as stated: blanks around header values are lost, and a caller's transfer-encoding misframes the body; proved for all other requests"
  },
  {
   "property": "C65",
   "status": "partial",
   "theorems": [
    "C65_blanks_refuted",
    "C65_version_refuted",
    "C65_trip_partial"
   ],
   "note": "false as stated: blanks around header values are lost, and the client refuses the server's HTTP/1.0 responses; proved for all other responses of at most 125 fields"
  },
  {
   "property": "C66",
   "status": "partial",
   "theorems": [
    "C66_head_refuted",
    "C66_chunked_partial"
   ],
   "note": "false as stated: every chunked response comes back as 200 without headers; proved that its body and trailers are right"
  },
  {
   "property": "C67",
   "status": "partial",
   "theorems": [
    "C67_both",
    "C67_large",
    "C67_unbounded_refuted",
    "C67_bounded_partial"
   ],
   "note": "the two refusals are proved; the last part is false: a line without end is buffered without bound; proved the bound that holds"
  },
  {
   "property": "C68",
   "status": "partial",
   "theorems": [
    "C68_length_refuted",
    "C68_length_partial"
   ],
   "note": "false as stated: the reader is copied to its end whatever was declared; proved when the declared length is the reader's"
  },
  {
   "property": "C77",
   "status": "partial",
   "theorems": [
    "C77_panics",
    "C77_panic_refuted",
    "C77_returns_partial"
   ],
   "note": "false as stated: a body of unknown length always panics; proved for all others"
  },
  {
   "property": "C78",
   "status": "partial",
   "theorems": [
    "C78_interim_refuted",
    "C78_first_partial"
   ],
   "note": "false as stated: an interim response is returned as the answer; proved that the answer is the first response"
  },
  {
   "property": "C79",
   "status": "partial",
   "theorems": [
    "C79_dropped_refuted",
    "C79_empty_partial"
   ],
   "note": "false as stated: such a body is dropped; proved what is returned instead"
  },
  {
   "property": "C80",
   "status": "partial",
   "theorems": [
    "C80_conflict_refuted",
    "C80_malformed_partial"
   ],
   "note": "false as stated: the first content-length counts; proved that a malformed first one is refused"
  },
  {
   "property": "C81",
   "status": "partial",
   "theorems": [
    "C81_case_refuted",
    "C81_other_lost",
    "C81_lower_partial"
   ],
   "note": "false as stated: only the exact spelling chunked is recognised, anything else loses the body; proved for that spelling"
  },
  {
   "property": "C82",
   "status": "partial",
   "theorems": [
    "C82_short_refuted",
    "C82_length_partial"
   ],
   "note": "false as stated: a body cut short by an orderly close is returned as if whole; proved for broken connections and complete bodies"
  },
  {
   "property": "C83",
   "status": "partial",
   "theorems": [
    "C83_body_refuted",
    "C83_bare_partial"
   ],
   "note": "false as stated: a content-length in such a response makes the following bytes its body; proved when it has none"
  },
  {
   "property": "C84",
   "status": "proved",
   "theorems": [
    "C84_segments"
   ],
   "note": ""
  },
  {
   "property": "C85",
   "status": "proved",
   "theorems": [
    "C85_verdict",
    "C85_total",
    "C85_nothing"
   ],
   "note": "modulo the transcription of httparse"
  },
  {
   "property": "C86",
   "status": "proved",
   "theorems": [
    "C86_fixed",
    "C86_chunked"
   ],
   "note": "chunked: for messages the decoder's buffer can take (C13), outside the empty-body panic of C08"
  },
  {
   "property": "C87",
   "status": "partial",
   "theorems": [
    "C87_returns_refuted",
    "C87_short_hangs",
    "C87_panic_refuted",
    "C87_fails_partial",
    "C87_chunked_partial"
   ],
   "note": "false as stated: a body shorter than declared makes the server spin for ever, a declared length of 2^64-1 makes it panic; proved for failing connections and all chunked bodies"
  },
  {
   "property": "C88",
   "status": "partial",
   "theorems": [
    "C88_whole_refuted",
    "C88_cut_passes",
    "C88_malformed_partial"
   ],
   "note": "false as stated: a chunked body cut off by an orderly close is passed on as complete; proved for malformed bodies"
  },
  {
   "property": "C89",
   "status": "proved",
   "theorems": [
    "C89_fixed",
    "C89_chunked"
   ],
   "note": "chunked: for messages the decoder's buffer can take (C13), outside the empty-body panic of C08"
  },
  {
   "property": "C90",
   "status": "partial",
   "theorems": [
    "C90_returns_refuted",
    "C90_short_hangs",
    "C90_fails_partial",
    "C90_chunked_partial"
   ],
   "note": "false as stated: an upstream body shorter than declared makes the server spin for ever; proved for failing connections and all chunked bodies"
  },
  {
   "property": "C91",
   "status": "proved",
   "theorems": [
    "C91_chunked",
    "C91_fixed"
   ],
   "note": "for declared lengths up to 2^64 minus the buffer size"
  },
  {
   "property": "C92",
   "status": "proved",
   "theorems": [
    "C92_in_time"
   ],
   "note": "chunked: for messages the decoder's buffer can take (C13)"
  },
  {
   "property": "C93",
   "status": "proved",
   "theorems": [
    "C93_waits",
    "C93_send_waits"
   ],
   "note": ""
  },
  {
   "property": "C94",
   "status": "partial",
   "theorems": [
    "C94_bounded",
    "C94_reported_refuted",
    "C94_silent",
    "C94_reported_partial"
   ],
   "note": "the bound is proved; false for the error: with doubling growth a first size line over 5120 bytes reads as an empty, complete body; the error is proved for growth by exactly 1024 bytes"
  },
  {
   "property": "C95",
   "status": "proved",
   "theorems": [
    "C95_answered_first",
    "C95_output"
   ],
   "note": ""
  },
  {
   "property": "C96",
   "status": "partial",
   "theorems": [
    "C96_head_refuted",
    "C96_body_follows",
    "C96_empty_partial"
   ],
   "note": "false as stated: body bytes follow whatever the method and status; proved when the body has declared length 0"
  },
  {
   "property": "C97",
   "status": "partial",
   "theorems": [
    "C97_close_refuted",
    "C97_goes_on"
   ],
   "note": "false as stated, for every request that is answered"
  },
  {
   "property": "C98",
   "status": "partial",
   "theorems": [
    "C98_hosts_refuted",
    "C98_accepted"
   ],
   "note": "false as stated, for every otherwise faultless request"
  },
  {
   "property": "C99",
   "status": "partial",
   "theorems": [
    "C99_vary_refuted",
    "C99_preflight_refuted"
   ],
   "note": "false as stated: vary is left as the handler set it, on all configurations"
  },
  {
   "property": "C100",
   "status": "partial",
   "theorems": [
    "C100_no_panic_refuted",
    "C100_no_panic_partial"
   ],
   "note": "false for handlers that read on after an error (C19) and for the responses of C08; proved for all others, also those that answer with their request's body"
  },
  {
   "property": "C101",
   "status": "proved",
   "theorems": [
    "C101_returns"
   ],
   "note": ""
  },
  {
   "property": "C102",
   "status": "partial",
   "theorems": [
    "C102_expect_refuted",
    "C102_session_partial",
    "C102_short_fits"
   ],
   "note": "false for requests with Expect: 100-continue (the client returns the interim response) and for status and fields of chunked responses (C66); proved for any number of calls without Expect, with visible header values and response heads below 8 KiB; of chunked responses that fit the client's buffer the body"
  },
  {
   "property": "C103",
   "status": "proved",
   "theorems": [
    "C103_head",
    "C103_in_time"
   ],
   "note": "chunked: for messages the decoder's buffer can take (C13)"
  },
  {
   "property": "C104",
   "status": "proved",
   "theorems": [
    "C104_streams",
    "C104_waits"
   ],
   "note": ""
  },
  {
   "property": "C105",
   "status": "proved",
   "theorems": [
    "C105_complete",
    "C105_prompt",
    "C105_failed"
   ],
   "note": "a stream without any data has the exception of C02"
  },
  {
   "property": "C106",
   "status": "proved",
   "theorems": [
    "C106_names",
    "C106_methods",
    "C106_values",
    "C106_text",
    "C106_compare",
    "C106_classes",
    "C106_punctuation",
    "C106_append",
    "C106_insert",
    "C106_lookup"
   ],
   "note": ""
  },
  {
   "property": "C107",
   "status": "proved",
   "theorems": [
    "C107_target",
    "C107_request",
    "C107_refused"
   ],
   "note": "targets in origin form; other forms go to an oracle"
  },
  {
   "property": "C108",
   "status": "proved",
   "theorems": [
    "C108_status_line",
    "C108_unique"
   ],
   "note": ""
  },
  {
   "property": "C109",
   "status": "proved",
   "theorems": [
    "C109_sent",
    "C109_next",
    "C109_end"
   ],
   "note": ""
  },
  {
   "property": "C110",
   "status": "partial",
   "theorems": [
    "C110_interim_refuted",
    "C110_never",
    "C110_response_partial"
   ],
   "note": "false as stated: the interim response is written but not flushed before the handler runs; it is flushed with the response"
  },
  {
   "property": "C111",
   "status": "partial",
   "theorems": [
    "C111_streamed_refuted",
    "C111_kept_back",
    "C111_end_partial"
   ],
   "note": "false as stated: nothing of a response is flushed before all of it has been written"
  },
  {
   "property": "C112",
   "status": "proved",
   "theorems": [
    "C112_flushed"
   ],
   "note": ""
  },
  {
   "property": "C113",
   "status": "proved",
   "theorems": [
    "C113_handed_on"
   ],
   "note": "the handler hands the body on unread, under its own length"
  },
  {
   "property": "C114",
   "status": "partial",
   "theorems": [
    "C114_aborted_refuted",
    "C114_chunked_partial"
   ],
   "note": "false as stated: a body of declared length is completed with the bytes of the next response"
  },
  {
   "property": "C115",
   "status": "partial",
   "theorems": [
    "C115_cut_off_refuted",
    "C115_ignored",
    "C115_served"
   ],
   "note": "false as stated: the timer guards heads only; once a head is complete the timer has no influence and a stalled body is waited for"
  },
  {
   "property": "C116",
   "status": "proved",
   "theorems": [
    "C116_refused",
    "C116_client",
    "C116_blank",
    "C116_fold",
    "C116_nameless",
    "C116_colonless",
    "C116_bare_cr",
    "C116_control"
   ],
   "note": "the parser is the httparse crate's, as modelled in Httparse.v"
  },
  {
   "property": "C117",
   "status": "partial",
   "theorems": [
    "C117_unread_refuted",
    "C117_unread",
    "C117_calls_partial",
    "C117_server"
   ],
   "note": "false as stated: a body that is not read is taken for the next response; proved for bodies read to their end"
  },
  {
   "property": "C118",
   "status": "proved",
   "theorems": [
    "C118_whole",
    "C118_unread"
   ],
   "note": "with C63 for transports that fail, and C112 for the flush"
  },
  {
   "property": "C119",
   "status": "proved",
   "theorems": [
    "C119_not_sent",
    "C119_after",
    "C119_handed_on"
   ],
   "note": ""
  },
  {
   "property": "C120",
   "status": "partial",
   "theorems": [
    "C120_leak_refuted",
    "C120_server_partial",
    "C120_whole",
    "C120_handed_on",
    "C120_client"
   ],
   "note": "false as stated: a handler that reads on after an error can be served any byte left in the pool; proved for handlers that heed errors, for whole-body reads, relays and the client"
  },
  {
   "property": "C121",
   "status": "proved",
   "theorems": [
    "C121_decoder",
    "C121_reads",
    "C121_whole",
    "C121_handed_on",
    "C121_client"
   ],
   "note": "for messages within the decoder's limits (fitting); request and response bodies, any failure point"
  },
  {
   "property": "C122",
   "status": "proved",
   "theorems": [
    "C122_decoder",
    "C122_sender",
    "C122_reads",
    "C122_request",
    "C122_client"
   ],
   "note": "entire (SpecLax.v): a complete message as tolerantly as the code reads it; C122_sender relates it to what the peer sent; no limit on sizes"
  },
  {
   "property": "C123",
   "status": "proved",
   "theorems": [
    "C123_decoder",
    "C123_reads",
    "C123_whole",
    "C123_client"
   ],
   "note": "bounded (SpecLax.v): chunked messages with size lines and trailers up to 1 KiB below 512 MiB; whether all of the body comes is C13"
  },
  {
   "property": "C124",
   "status": "proved",
   "theorems": [
    "C124_request",
    "C124_content",
    "C124_client",
    "C124_own"
   ],
   "note": "every mixture of poll_read, poll_fill_buf and consume (BufReads.v) is matched by plain reads"
  },
  {
   "property": "C125",
   "status": "partial",
   "theorems": [
    "C125_fixed",
    "C125_own",
    "C125_chunked_partial",
    "C125_lines_refuted"
   ],
   "note": "false for chunked bodies whose last line has no LF: to see the end read_until is called after it, and the finished decoder reads the connection again (an error if that fails, else the next request is lost); holds for bodies with a length, own bodies, and chunked bodies that end with LF"
  },
  {
   "property": "C126",
   "status": "partial",
   "theorems": [
    "C126_own",
    "C126_fixed_partial",
    "C126_trip_partial",
    "C126_short_refuted",
    "C126_chunked_refuted"
   ],
   "note": "false for chunked bodies (connect panics on every one) and for bodies the peer breaks off by closing (sent short, under the full length); holds for bodies of declared length that arrive, and a failing connection makes connect fail"
  },
  {
   "property": "C127",
   "status": "partial",
   "theorems": [
    "C127_fixed",
    "C127_status_refuted",
    "C127_chunked_partial",
    "C127_server"
   ],
   "note": "false of the status of chunked answers (always 200, from C66); proved for answers with a declared length and for the bodies of chunked ones"
  },
  {
   "property": "C128",
   "status": "partial",
   "theorems": [
    "C128_shorter_partial",
    "C128_chunked_partial",
    "C128_longer_hangs",
    "C128_longer_unsent",
    "C128_returns_refuted"
   ],
   "note": "false for lengths beyond the payload (the answer is never finished, nor ever reported as sent); holds for every shorter length and for chunks"
  },
  {
   "property": "C129",
   "status": "partial",
   "theorems": [
    "C129_says_partial",
    "C129_agrees",
    "C129_empty_refuted"
   ],
   "note": "false of 'Empty response', which is also said of a server that closes in the middle of a head; every text is otherwise proved to name a reason that holds"
  },
  {
   "property": "C130",
   "status": "proved",
   "theorems": [
    "C130_account",
    "C130_no_more"
   ],
   "note": "any bytes, segmentation and i/o errors on the input"
  },
  {
   "property": "C131",
   "status": "partial",
   "theorems": [
    "C131_segments_refuted",
    "C131_answers_partial",
    "C131_prescribed"
   ],
   "note": "false as stated: two requests in one segment get one answer, in two segments two (see C33); proved whenever each request comes in segments of its own"
  },
  {
   "property": "C132",
   "status": "proved",
   "theorems": [
    "C132_fields",
    "C132_types",
    "C132_refused",
    "C132_simple",
    "C132_preflight"
   ],
   "note": ""
  },
  {
   "property": "C133",
   "status": "proved",
   "theorems": [
    "C133_server",
    "C133_send",
    "C133_bodies",
    "C133_client",
    "C133_token",
    "C133_converse_refuted"
   ],
   "note": "the converse, which is not claimed, is refuted: some lengths near 2^64 panic in debug builds only"
  }
 ]
}
