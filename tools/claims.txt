C01 | proved | C01_fixed_exact | declared length below 2^64 minus the copy buffer (beyond that: C08)
C02 | proved | C02_chunked_exact | copy buffer of at least 7 bytes (the crate's: 8192); head lengths outside the panic window of C08 when the body is empty
C03 | proved | C03_one_framing_header | read off the wire image by an independent head reader
C04 | proved | C04_head_integrity | read off the wire image by an independent head reader, with arbitrary bytes following
C05 | proved | C05_date_once |
C06 | proved | C06_default_content_type |
C07 | partial | C07_terminates_refuted C07_short_body_never_ends C07_terminates_partial | false as stated: a reader that ends before the declared length makes encode_fixed_body recurse for ever (server/encode.rs:140-185); termination proved in all other cases, non-termination proved in exactly this one
C08 | partial | C08_no_panic_refuted C08_no_panic_length_refuted C08_no_panic_partial C08_empty_panics C08_length_panics C08_profiles_refuted | false as stated: empty chunked body when the head leaves 3 or 4 bytes in the copy buffer (chunked/encoder.rs:199-245), and lengths near usize::MAX (server/encode.rs:159; exactly which in release builds); no panic proved in all other cases
C09 | proved | C09_read_failure_fixed C09_read_failure_chunked |
C10 | proved | C10_write_failure_fixed C10_write_failure_chunked |
C11 | proved | C11_prefix_of_payload | any message size; also when reading on after the end
C12 | proved | C12_complete_small |
C13 | partial | C13_complete_refuted C13_complete_partial | false as stated: a framing element straddling the end of the 4096-byte buffer is taken for the end of the body (460 chunks of 4 bytes end after 455); proved for any number of chunks of any size as long as framing and the data of chunks below 4096 bytes fit the buffer
C14 | partial | C14_malformed_refuted C14_malformed_partial C14_nothing_after | false as stated: a size line without digits counts as the final chunk; proved for every other malformation within the buffer; nothing after the malformation is delivered, whatever the size
C15 | proved | C15_trailers | under the size condition of C13
C16 | partial | C16_truncation_refuted C16_truncation_silent | false as stated; proved instead that every truncation is silent
C18 | proved | C18_progress C18_reading_ends |
C19 | partial | C19_no_panic_refuted C19_no_panic_partial | false as stated: reading on after an error may panic; no panic up to and including the first error, nor after the end
C20 | proved | C20_round_trip |
C71 | partial | C71_sticky_error_refuted C71_sticky_end_partial | false as stated: stale bytes of a recycled buffer are delivered; the end of a well-formed message is sticky
C72 | proved | C72_bad_trailers |
C17 | partial | C17_truncation_refuted C17_broken_connection_partial | false as stated: after an orderly close a short body ends successfully; a broken connection is reported
C21 | proved | C21_segmentation |
C22 | proved | C22_fixed_body | a body cut short by the peer ends early, see C17
C23 | proved | C23_no_host C23_with_host | 400 unless the request also has the fault of C24 (505) or C25 (501)
C24 | proved | C24_http10 |
C25 | proved | C25_encoding |
C26 | partial | C26_signed_length_refuted C26_bad_length_partial | false as stated for one form: a plus sign is accepted; proved for every other invalid value
C27 | partial | C27_duplicate_length_refuted C28_framing | false as stated: the last length wins
C28 | proved | C28_framing C28_chunked_body |
C29 | proved | C29_headers |
C30 | proved | C30_interim |
C31 | partial | C31_skipped_refuted C31_strict_partial C31_dropped_partial | false as stated: with bare line feeds bytes behind the head are dropped; proved for heads with CRLF line ends; for all heads, exactly which bytes are dropped
C69 | partial | C69_head_unbounded_refuted | false: for every bound a longer head is read and accepted
C70 | proved | C70_too_many_fields |
C73 | partial | C73_read_after_end_refuted C73_fixed_partial | false for chunked bodies; proved for fixed-length bodies
C32 | proved | C32_conversation | conversations of any length, each request in segments of its own
C33 | partial | C33_pipelined_refuted C33_lost C33_own_segments_partial | false as stated: whatever shares a segment with an earlier request, behind it, has no effect at all; proved when every request comes in its own segments
C34 | partial | C34_body_as_request_refuted C34_one_segment_partial C34_body_read_partial | false as stated: an unread body in a segment of its own is taken for a request; proved for bodies that arrive with the head and for handlers that read the body
C35 | proved | C35_close | 
C36 | proved | C36_goes_on | 
C37 | partial | C37_broken_refuted C37_ends_partial C37_error_partial | false as stated: on a persistently failing connection accept loops for ever; proved: bounded number of turns when the input ends, single errors are survived
C38 | proved | C38_error | 
C39 | proved | C39_glitch C39_answered | 
C40 | partial | C40_second_response_refuted C40_one_response_partial | false as stated: a handler that fails after sending causes a second response; proved for handlers that do not
C41 | proved | C41_timeout C41_default C41_in_time C41_race | 
C42 | proved | C42_response C42_sent C42_built C42_made | 
C43 | proved | C43_private C43_default C43_errors C43_verbose | 
C44 | proved | C44_results C44_options C44_wire | 
C45 | proved | C45_calls C45_panics C45_wire C45_fresh C45_send_code | every sequence of writer calls: the response holds the latest status, version and body, header fields as last inserted plus later appends; a call panics exactly for invalid header names/values; on the wire the same
C46 | partial | C46_text_ok_refuted C46_text_ok_partial | false as stated: set_text does not set the status to 200; content-type, body and everything else about set_text are proved, with the status left as it was
C47 | proved | C47_not_cors C47_endpoint | the endpoint behind Cors sees a fresh response
C48 | proved | C48_refused C48_endpoint C48_wire C48_connection | origins compared as bytes, configured origins normalised by the headers crate (oracle)
C49 | proved | C49_simple C49_connection | also exposes exactly the configured headers
C50 | proved | C50_preflight C50_endpoint C50_wire C50_connection | list split at bare commas (see C51)
C51 | partial | C51_whitespace_refuted C51_whitespace_partial | false as stated: a list with a space after a comma is refused; proved that any whitespace in the list means refusal for every configuration
C52 | proved | C52_origins C52_accumulate C52_any C52_default | includes that with nothing configured every origin is echoed together with allow-credentials
C53 | partial | C53_star_method_refuted C53_no_slash_refuted C53_routed_partial C53_not_found_partial C53_wire_partial | false as stated for methods containing a star and for paths that do not begin with a slash (method and path form one pattern); proved for all other registrations, against path-tree's documented contract (soundness only)
C54 | proved | C54_keys C54_methods C54_literals | C54_methods for methods without a star (see C53)
C55 | proved | C55_endpoint C55_connection | wrapped_data::<Data<T>> counts like data::<T>; also nested routers: outer data stays visible when the inner router has none
C56 | proved | C56_login C56_sets C56_wire | the signature scheme is an oracle with a stated contract; clock below 2^63 seconds, cookie name a token
C57 | proved | C57_forget C57_forgets C57_expiry C57_never_expired C57_wire | signature scheme as in C56
C58 | proved | C58_forged | signature scheme as in C56: verification accepts exactly the tokens made with the key
C59 | partial | C59_second_cookie_refuted C59_first_cookie_partial | false as stated: only the first cookie of each Cookie header is read; proved exactly when a request is recognised
C60 | partial | C60_issuer_refuted C60_issuer_partial | false as stated: the issuer is not checked; proved that it has no influence and that it is written into the tokens
C74 | proved | C74_attributes C74_forget C74_builder | attributes in any order
C61 | proved | C61_round_trip C61_reader | also for bodies over a caller's reader, and as text
C62 | partial | C62_returns_refuted C62_fixed_hangs C62_own_hangs C62_truncated_hangs C62_complete_partial C62_taken_partial | false as stated: never returns for any body of declared length nor for a truncated chunked body; proved for complete chunked bodies and for bodies whose sender was taken and dropped
C75 | proved | C75_fixed C75_chunked C75_returns | chunked messages as far as they fit the decoder's buffer (C13, C14)
C76 | partial | C76_text_panic_refuted C76_text_partial C76_huge_panics | false as stated: a declared length above isize::MAX panics; proved for all others
C63 | proved | C63_written C63_unaddressed | any write schedule; bodies of unknown length are C77
C64 | partial | C64_blanks_refuted C64_framing_refuted C64_trip_partial | false as stated: blanks around header values are lost, and a caller's transfer-encoding misframes the body; proved for all other requests
C65 | partial | C65_blanks_refuted C65_version_refuted C65_trip_partial | false as stated: blanks around header values are lost, and the client refuses the server's HTTP/1.0 responses; proved for all other responses of at most 125 fields
C66 | partial | C66_head_refuted C66_chunked_partial | false as stated: every chunked response comes back as 200 without headers; proved that its body and trailers are right
C67 | partial | C67_both C67_large C67_unbounded_refuted C67_bounded_partial | the two refusals are proved; the last part is false: a line without end is buffered without bound; proved the bound that holds
C68 | partial | C68_length_refuted C68_length_partial | false as stated: the reader is copied to its end whatever was declared; proved when the declared length is the reader's
C77 | partial | C77_panics C77_panic_refuted C77_returns_partial | false as stated: a body of unknown length always panics; proved for all others
C78 | partial | C78_interim_refuted C78_first_partial | false as stated: an interim response is returned as the answer; proved that the answer is the first response
C79 | partial | C79_dropped_refuted C79_empty_partial | false as stated: such a body is dropped; proved what is returned instead
C80 | partial | C80_conflict_refuted C80_malformed_partial | false as stated: the first content-length counts; proved that a malformed first one is refused
C81 | partial | C81_case_refuted C81_other_lost C81_lower_partial | false as stated: only the exact spelling chunked is recognised, anything else loses the body; proved for that spelling
C82 | partial | C82_short_refuted C82_length_partial | false as stated: a body cut short by an orderly close is returned as if whole; proved for broken connections and complete bodies
C83 | partial | C83_body_refuted C83_bare_partial | false as stated: a content-length in such a response makes the following bytes its body; proved when it has none
C84 | proved | C84_segments |
C85 | proved | C85_verdict C85_total C85_nothing | modulo the transcription of httparse
C86 | proved | C86_fixed C86_chunked | chunked: for messages the decoder's buffer can take (C13), outside the empty-body panic of C08
C87 | partial | C87_returns_refuted C87_short_hangs C87_panic_refuted C87_fails_partial C87_chunked_partial | false as stated: a body shorter than declared makes the server spin for ever, a declared length of 2^64-1 makes it panic; proved for failing connections and all chunked bodies
C88 | partial | C88_whole_refuted C88_cut_passes C88_malformed_partial | false as stated: a chunked body cut off by an orderly close is passed on as complete; proved for malformed bodies
C89 | proved | C89_fixed C89_chunked | chunked: for messages the decoder's buffer can take (C13), outside the empty-body panic of C08
C90 | partial | C90_returns_refuted C90_short_hangs C90_fails_partial C90_chunked_partial | false as stated: an upstream body shorter than declared makes the server spin for ever; proved for failing connections and all chunked bodies
C91 | proved | C91_chunked C91_fixed | for declared lengths up to 2^64 minus the buffer size
C92 | proved | C92_in_time | chunked: for messages the decoder's buffer can take (C13)
C93 | proved | C93_waits C93_send_waits |
C94 | partial | C94_bounded C94_reported_refuted C94_silent C94_reported_partial | the bound is proved; false for the error: with doubling growth a first size line over 5120 bytes reads as an empty, complete body; the error is proved for growth by exactly 1024 bytes
C95 | proved | C95_answered_first C95_output |
C96 | partial | C96_head_refuted C96_body_follows C96_empty_partial | false as stated: body bytes follow whatever the method and status; proved when the body has declared length 0
C97 | partial | C97_close_refuted C97_goes_on | false as stated, for every request that is answered
C98 | partial | C98_hosts_refuted C98_accepted | false as stated, for every otherwise faultless request
C99 | partial | C99_vary_refuted C99_preflight_refuted | false as stated: vary is left as the handler set it, on all configurations
C100 | partial | C100_no_panic_refuted C100_no_panic_partial | false for handlers that read on after an error (C19) and for the responses of C08; proved for all others, also those that answer with their request's body
C101 | proved | C101_returns |
C102 | partial | C102_expect_refuted C102_session_partial C102_short_fits | false for requests with Expect: 100-continue (the client returns the interim response) and for status and fields of chunked responses (C66); proved for any number of calls without Expect, with visible header values and response heads below 8 KiB; of chunked responses that fit the client's buffer the body
C103 | proved | C103_head C103_in_time | chunked: for messages the decoder's buffer can take (C13)
C104 | proved | C104_streams C104_waits |
C105 | proved | C105_complete C105_prompt C105_failed | a stream without any data has the exception of C02
C106 | proved | C106_names C106_methods C106_values C106_text C106_compare C106_classes C106_punctuation C106_append C106_insert C106_lookup |
C107 | proved | C107_target C107_request C107_refused | targets in origin form; other forms go to an oracle
C108 | proved | C108_status_line C108_unique |
C109 | proved | C109_sent C109_next C109_end |
C110 | partial | C110_interim_refuted C110_never C110_response_partial | false as stated: the interim response is written but not flushed before the handler runs; it is flushed with the response
C111 | partial | C111_streamed_refuted C111_kept_back C111_end_partial | false as stated: nothing of a response is flushed before all of it has been written
C112 | proved | C112_flushed |
C113 | proved | C113_handed_on | the handler hands the body on unread, under its own length
C114 | partial | C114_aborted_refuted C114_chunked_partial | false as stated: a body of declared length is completed with the bytes of the next response
C115 | partial | C115_cut_off_refuted C115_ignored C115_served | false as stated: the timer guards heads only; once a head is complete the timer has no influence and a stalled body is waited for
C116 | proved | C116_refused C116_client C116_blank C116_fold C116_nameless C116_colonless C116_bare_cr C116_control | the parser is the httparse crate's, as modelled in Httparse.v
C117 | partial | C117_unread_refuted C117_unread C117_calls_partial C117_server | false as stated: a body that is not read is taken for the next response; proved for bodies read to their end
C118 | proved | C118_whole C118_unread | with C63 for transports that fail, and C112 for the flush
C119 | proved | C119_not_sent C119_after C119_handed_on |
C120 | partial | C120_leak_refuted C120_server_partial C120_whole C120_handed_on C120_client | false as stated: a handler that reads on after an error can be served any byte left in the pool; proved for handlers that heed errors, for whole-body reads, relays and the client
C121 | proved | C121_decoder C121_reads C121_whole C121_handed_on C121_client | for messages within the decoder's limits (fitting); request and response bodies, any failure point
C122 | proved | C122_decoder C122_sender C122_reads C122_request C122_client | entire (SpecLax.v): a complete message as tolerantly as the code reads it; C122_sender relates it to what the peer sent; no limit on sizes
C123 | proved | C123_decoder C123_reads C123_whole C123_client | bounded (SpecLax.v): chunked messages with size lines and trailers up to 1 KiB below 512 MiB; whether all of the body comes is C13
C124 | proved | C124_request C124_content C124_client C124_own | every mixture of poll_read, poll_fill_buf and consume (BufReads.v) is matched by plain reads
C125 | partial | C125_fixed C125_own C125_chunked_partial C125_lines_refuted | false for chunked bodies whose last line has no LF: to see the end read_until is called after it, and the finished decoder reads the connection again (an error if that fails, else the next request is lost); holds for bodies with a length, own bodies, and chunked bodies that end with LF
C126 | partial | C126_own C126_fixed_partial C126_trip_partial C126_short_refuted C126_chunked_refuted | false for chunked bodies (connect panics on every one) and for bodies the peer breaks off by closing (sent short, under the full length); holds for bodies of declared length that arrive, and a failing connection makes connect fail
C127 | partial | C127_fixed C127_status_refuted C127_chunked_partial C127_server | false of the status of chunked answers (always 200, from C66); proved for answers with a declared length and for the bodies of chunked ones
C128 | partial | C128_shorter_partial C128_chunked_partial C128_longer_hangs C128_longer_unsent C128_returns_refuted | false for lengths beyond the payload (the answer is never finished, nor ever reported as sent); holds for every shorter length and for chunks
C129 | partial | C129_says_partial C129_agrees C129_empty_refuted | false of 'Empty response', which is also said of a server that closes in the middle of a head; every text is otherwise proved to name a reason that holds
C130 | proved | C130_account C130_no_more | any bytes, segmentation and i/o errors on the input
C131 | partial | C131_segments_refuted C131_answers_partial C131_prescribed | false as stated: two requests in one segment get one answer, in two segments two (see C33); proved whenever each request comes in segments of its own
C132 | proved | C132_fields C132_types C132_refused C132_simple C132_preflight | 
C133 | proved | C133_server C133_send C133_bodies C133_client C133_token C133_converse_refuted | the converse, which is not claimed, is refuted: some lengths near 2^64 panic in debug builds only
