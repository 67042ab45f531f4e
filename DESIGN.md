# Formal model of hwchen/tophat in Rocq (Coq 8.16.1)

The deliverable is `rocq/theories`: a model of the crate (`/repo/src`, all three features on),
small specifications, and machine-checked theorems for the properties of `properties.jsonl`.
`MANIFEST.json` says which theorems belong to which property (generated from
`tools/claims.txt`); `seeded/LOG.jsonl` records the wrong programs the theorems were tried on.

## 1. What is modelled, and how

The model is a set of total, computable Gallina functions, one per function of the source.
Each definition cites the file and lines it models and says where it simplifies.

| file | models |
|---|---|
| `Bytes.v` | bytes, ASCII classes, `{}` / `{:X}` formatting, `str::parse::<usize>`, `trim` |
| `Io.v` | transports and readers, futures-lite `BufReader`, `io::copy`, `read_until`, `write_all` |
| `Http.v` | `http` crate: `HeaderMap`, validity of names/values/methods/status, origin-form `Uri` |
| `Httparse.v` | `httparse` crate: request and response heads, header blocks, chunk-size lines |
| `ChunkedEnc.v` | `src/chunked/encoder.rs` |
| `ChunkedDec.v` | `src/chunked/decoder.rs`, `src/trailers.rs` |
| `ServerEnc.v` | `src/server/encode.rs`, `InnerResponse::send` |
| `ServerDec.v` | `src/server/decode.rs`, `Take` and `BufReader` around a request body |
| `Accept.v` | `src/server/mod.rs`: the connection loop; handlers as interaction trees |
| `Timeout.v` | `src/timeout.rs` |
| `Glitch.v` | `src/server/glitch.rs` with `GlitchExt` and the macros |
| `RespWriter.v` | `src/server/response_writer.rs` |
| `Cors.v`, `Router.v`, `Identity.v` | `src/server/{cors,router,identity}.rs` |
| `BodyM.v`, `BodyRead.v` | `src/body.rs`, `src/util.rs`: constructors; reading to the end, trailers |
| `Reads.v` | the reading half of a body's user: any sequence of polls |
| `Client.v` | `src/client/{mod,encode,decode}.rs` |
| `Relay.v` | the response encoder over the body of a received message, `AsyncBufRead for Body`; a handler's answer with its request's body (`PRelay` of `Accept.v`) |
| `BufReads.v` | sequences of `poll_read`, `poll_fill_buf` and `consume` on a body (`src/body.rs:159-178`); `read_until` and `lines` of futures-lite |
| `Forward.v` | `connect` with a body that was received (`src/client/encode.rs:13-165`, `src/client/mod.rs:15-26`) |
| `ClientErr.v` | the errors of the client and their texts (`src/client/error.rs:6-91`), and which of them `connect` returns (`src/client/mod.rs:15-26`, `src/client/encode.rs:44-62`, `src/client/decode.rs:32-121`) |

Specifications, written without the model's helpers: `SpecIo.v` and `SpecEnv.v` (what theorems
assume of the peer, of the libraries and of the machine), `SpecText.v` (classes of characters and
the comparison of names), `SpecResponse.v`, `SpecHead.v` (a reader of
response heads), `SpecChunked.v` (grammar of chunked messages as an inductive relation),
`SpecReq.v` (request heads), `SpecServer.v`, `SpecBody.v`, `SpecGlitch.v`, `SpecWriter.v`,
`SpecCors.v`, `SpecRouter.v`, `SpecIdentity.v`, `SpecClient.v`, `SpecPool.v`, `SpecCall.v` (calls between client
and server), `SpecLax.v` (chunked messages as a tolerant receiver reads them), `SpecErr.v` (what the texts
of the client's errors stand for), `SpecAccount.v` (which answers account for which bytes), `SpecCorsFields.v` (what the
public fields of a `CorsBuilder` may hold), `SpecProfile.v` (debug and release builds).

`Lemmas.v` and `Proofs_*.v` hold the proofs, `Examples_*.v` witnesses and helpers for them,
`Properties_*.v` only statements closed by `exact`, each with `Print Assumptions` and with an
`Example` instantiating its hypotheses on concrete data.

### Asynchrony
A reader (a transport, or the reader inside a response body) is a *script*: a list of events
(`Data d`, `Pend fired`, `Fail`) and a tail (end of file for ever, or failure for ever). A
`poll_read` with a buffer of `n` bytes takes at most `n` bytes of the next `Data`. Quantifying
over scripts is quantifying over all contents, segmentations, pending polls and failure points.
`fired` says whether the connection timer has elapsed at that poll; quantifying over it is
quantifying over timings. A writer is a script of `WAcc k` (accept at most `k` bytes), `WPend`,
`WFail`, with the bytes accepted so far and how many of them the last successful flush covered;
flushes may be pending or fail like writes. Wakers are not modelled: a pending future is polled
again. That the code reports pending only when what it reads from did so last, with the same
context, is C93's; that the transport then wakes the task is trusted.

### Panics, hangs, debug builds
Slice bounds, `expect`, `unwrap`, `assert` are explicit `Panic` outcomes computed from the bounds
the source checks. Overflow checks and `debug_assert` are controlled by one switch `e_ovf`
(theorems hold for both values unless they say otherwise). Loops and recursion run on fuel with
an explicit out-of-fuel outcome; a theorem about termination exhibits a bound from which that
outcome is impossible, one about divergence shows it for every fuel. Fuel bounds the
computation and nothing else: an outcome reached with some fuel is the outcome with any more of it,
so a connection has at most one (`accept_fuel`, `accept_one` in `Proofs_Fuel.v`; `connect_mono` for
the client).

### Handlers
A handler is a coinductive interaction: it polls the request body with buffers of its choice,
decides from the results, and then fails with a glitch or sends a response; afterwards it may
read on and succeed or fail. The connection loop takes a different handler for every turn, so
shared state, clocks and other tasks of the application are covered. Not covered: a handler that
panics by itself, hands the body or the writer to another task, or reads the body through
`AsyncBufRead` itself (by C124 that gives what plain reading gives). A handler that makes the received body the body of its response is
covered (`PRelay` in `Accept.v`, over `Relay.v`: C86-C90 and C128 for one exchange, C100, C101,
C113 and C114 within the loop); one that gives it to the client, in `Forward.v` (C126).

### Oracles
Arguments of the model (fields of records, never axioms); theorems hold for all values that meet
the stated contract, and an instance is exhibited next to them:

| what | contract used |
|---|---|
| text of the current date (`e_date`) | `env_wf`: a non-empty legal header value |
| the floating-point digit count of the chunk encoder (`e_hexlen`) | `hexlen_ok`: at least the number of hexadecimal digits and at most one more |
| capacity growth of `Vec`, contents of recycled pool blocks (`e_grow`, `e_stale`) | growth at least to what was asked for; contents arbitrary |
| whether httparse trims trailing blanks (`e_trim`) | either |
| uris not in origin form (`other`) | arbitrary |
| `path-tree` | a match means the pattern matches the path with those captures (soundness only) |
| `headers::Origin` normalisation, iteration order of a `HashSet` | arbitrary function / any permutation |
| `jsonwebtoken` (`jwt`) | `jwt_ok`: verification under a key accepts exactly what was signed with it |
| buffer sizes chosen by `read_to_end` | positive |

## 2. What is proved of each property

Shapes: (A) functional statement over arbitrary data, by induction over the data; (I) invariant
by induction over scripts, polls or turns; (R) refinement against a specification; (X) false of
the code: a `..._refuted` theorem with a concrete witness, and theorems (suffix `_partial`, or
a theorem about the failure itself) saying what does hold.

| id | shape | model and method |
|---|---|---|
| C01, C02 | R | the encoder under `io::copy` against `SpecResponse`/`SpecChunked`; induction over reader and writer scripts with a fuel measure |
| C03-C06 | A, I | the head as read back from the wire by `SpecHead`; `sent_under` ties it to whatever `send` has written (`Proofs_Begin`) |
| C07 | X | divergence for every fuel when the reader is shorter than the declared length; termination otherwise |
| C08 | X | two panic witnesses; panic-free outside these conditions; for chunked bodies a proof that the condition is exact, for declared lengths the same without overflow checks (`Proofs_Vast`) |
| C09, C10 | I | prefix invariants of the copy loop |
| C11, C12, C15, C18, C20, C72 | I, R | invariant relating decoder state, undelivered payload and unread bytes |
| C13 | X | framing across the end of the 4096-byte buffer ends the body; completeness for any number of chunks under the size condition |
| C14, C16, C17, C19, C71, C73 | X | malformed or truncated bodies, reading on after an error or the end |
| C21, C22, C28-C30, C70 | I, A | head reading depends on the concatenation only; pure part of `decode`; `Take` over `BufReader` |
| C23-C25 | A | verdicts of `decode` lifted to the wire and to the turn |
| C26, C27, C31, C69 | X | `+5`, duplicate lengths, bytes behind bare line feeds, unbounded head |
| C32, C35, C36, C38, C39, C41 | I | induction over the turns of the connection loop |
| C33, C34, C37, C40 | X | pipelining, unread bodies, persistent failure, second response |
| C42-C45, C46 (X) | A | glitches; every sequence of writer calls |
| C47-C50, C52, C51 (X) | A | CORS decisions for every configuration built by builder calls; C48-C50 also from the bytes of the request to the bytes of the answer |
| C53 (X), C54, C55 | A | routing against path-tree's contract |
| C56-C58, C74, C59, C60 (X) | A | identity against `jwt_ok`; C56 and C57 also from the bytes of the response that sets the cookie to the bytes of the request that sends it back |
| C61, C75, C62, C76 (X) | I | reading whole bodies |
| C63, C84, C85 | R, I | client encoder under `io::copy`; client decoder |
| C64, C65, C66 (X) | R | composition of client and server models |
| C67, C68, C77-C83 (X) | A, I | client framing, panics, interim responses, truncation |
| C86, C89, C87, C88, C90 (X) | I, R | the encoder under `io::copy` over what a body reader yields; the yield of any decoder state by a measure |
| C91, C92, C93 | I, R | runs of the encoder and the decoder up to a wait do not depend on what comes after it; a wait is reached only with nothing left to deliver; the events taken by a pending poll are data, then that wait |
| C94 (X) | I | an invariant on the block over all reads; while a size line is unfinished each read either takes more of it or hits the limit; when the block grows by more than was asked for, a full block is not seen as full, the next read of zero bytes is taken for the end of the input and the body ends silently |
| C95 | I | induction over `exchange` with the rest of the input left open; output only ever grows |
| C96, C97, C98, C99 (X) | I | witnesses, and the general statement of what happens instead |
| C100 (X), C101 | I | an invariant of body readers up to the first error; handlers are coinductive programs that heed errors; a measure on the body and on the connection; handlers may also hand the body on (Proofs_Healthy.v: an invariant of the relaying encoder) |
| C102 (X) | I | one call: the client's message is read by the server as the request (C64's trip), its answer by the client as the response (C65's); induction over the calls of a connection |
| C103, C104 | I, R | as C91-C93, for the client: its reader is the server's reader behind another head, its encoder has no framing |
| C105 | I | the events of the stream as the script of a body's reader; then C02, C09 and C91 |
| C106 | A | the model's tables and header maps against lists of characters and against `values` |
| C107 | I | the uri parser against a grammar of origin-form targets; then through C29 and the verdict of the head |
| C108 | A, I | the head as read back, against a table of phrases; `sent_under` as for C03 |
| C109, C112 | I | flushed bytes over the copy loop, the turn and the connection |
| C110, C111 (X) | I | the same invariant: only the end of a successful copy flushes |
| C113 | I | the copy of a body that is being received runs in lockstep with the plain copy of a script of what it yields (C86's yield); the transport it leaves is the one reading the body to its end leaves; induction over the dialogue |
| C114 (X) | I | a witness with a declared length; for chunked responses the wire ends before the first byte or between chunks, where a status line is no size line |
| C115 (X) | I | a relational proof (two runs whose sources differ only in the timer's flags stay in step through body reads, relays and handlers); then the case of a source with no flags set, which the conversation proof covers; a witness that stalls for any number of polls |
| C116 | A | the field parser on lines outside of the grammar, after any fields; then the verdicts of C23-C28 and C85 |
| C117 | X | [connect] and the reading of bodies, call after call (`calls` of `SpecCall.v`); reading a body that has arrived does not depend on what comes behind it; induction over the calls |
| C118 | I | the run of the client's encoder (C63): it ends without an error only if the body's reader does; fuel monotonicity of the copy |
| C119 | I | the result of the handler settles for every large enough fuel; then C39 for what it has left of the writer (`Proofs_Report`) |
| C120 (X) | I | two runs on machines that differ only in `e_stale` are in lockstep up to the decoder's block, and equal until a read fails (`Proofs_Pool`); `vm_compute` of a request that is answered with any byte left in the pool |
| C121 | I | the decoder over a failing connection is in lockstep with the decoder over the same connection closed, and with the rest delivered, up to the first error (`Proofs_DecFail`); the former gives what was delivered, the latter excludes an end |
| C122 | I | an invariant of the decoder on arbitrary input (`Proofs_Sound`): in each state, what has been consumed is a beginning of a message and what has been delivered is its data; the inverse of the size-line and trailer parsers; a message can be read in only one way |
| C123 | I | the invariant of C122 locates the decoder's buffer within the message sent, so an unfinished size line or trailer section is shorter than the limit and `grow` never refuses (`Proofs_Long`); the parsers do not reject what is part of a well-formed message (facts of `Proofs_DecMsg`); a clean connection gives no errors |
| C124 | I | simulation (`Proofs_BufReads`): a reader that has been looked at and the same reader not looked at give the same bytes to the next read or look; per layer (`BufReader` and `Take`, decoder with its buffer, own bodies); induction over the steps; content by C73, C75 |
| C125 (X) | I | `read_until` is a sequence of looks of C124; induction over the steps left (`Proofs_BufReads`, `Proofs_Lines`); witnesses for the read after the end |
| C126 (X) | I | the encoder of C63 over the readers of C73 (`Proofs_Forward`); the next server by C64 with the body as one own; witness for the peer that closes; the panic for a body without length by the code of the head |
| C127 (X) | R | composition (`Proofs_Proxy`): the client's decoder (C65, C66), the relay of C89, and the client's decoder again; witness for the status |
| C128 (X) | I | the relay invariants of C86 with the announced length as a parameter (`Proofs_Recast`): what the reader yields against what is announced; for longer ones an encoder invariant "less left than announced" (`Proofs_Over`); witness that never returns |
| C129 (X) | I | the client's functions once more, computing the error (`ClientErr.v`): agreement with `connect` by cases, then inversion of each text over the head loop (`Proofs_ClientErr`); witness for 'Empty response' |
| C130 | I | one turn with any input: its output against the head that arrived and the decision of the handler (`turn_any` in `Proofs_Account`), then induction on the turns; what is skipped between heads from the remainder relation of C34 |
| C131 (X) | I | conversations of C32 determine their responses: heads, verdicts, bodies and decisions are functions of the bytes (`same_due` in `Proofs_Regroup`); what is written for a response is unique because sending is a function; witness with two requests in one segment |
| C132 | A | any values of the field types are what some builder calls make (origins through an oracle that takes a url's authority for the origin, which C47-C52 allow since they hold for every oracle); the calls say what the fields say; the answers then follow from C48-C50; builder calls keep to the types. Covers an application's own `IntoOrigin` too, as any header value may be an origin |
| C133 | I | the profile is the switch `e_ovf`; simulation through encoder, copy loop, handler and connection loop: each release outcome equals the debug outcome or the latter is a panic (`tracks` in `Proofs_Profile`); witness where only the debug build panics |

Refuted properties are kept in `properties.jsonl` as a user would state them; the manifest lists
them as `partial` with a note beginning "false as stated".

## 3. Trusted base

* Coq 8.16.1's kernel, including its virtual machine (`vm_compute` in witnesses).
* `Print Assumptions` under every theorem of the `Properties_*.v` files answers "Closed under
  the global context": no axioms. (A whole-library listing such as `coqchk -o` also names
  constants of `Coq.ssr.ssrunder`, a module type of the standard library that is loaded with
  the `lia` tactic's dependencies; no theorem depends on them.) No own axioms, no section-less
  variables, no functors or module types, no switched-off checks.
* The transcription of the source into Gallina, checked by reading, by the wrong programs, and by
  `Examples_Repo.v`: every test of the project (`tests/*.rs` and the unit tests in `src`), run on the
  model, gives the output the test expects.
* The transcription of the dependencies, which are not in the sandbox, from documentation and
  memory: httparse 1.3.4, http 0.2 (incl. order of `HeaderMap` iteration: insertion order of
  names, `append` keeping values of a name together; `append` beyond 32768 entries, which
  panics, is not modelled), futures-lite 1.11, byte-pool 0.2.2, async-channel (capacity 1),
  futures-util `into_async_read`, headers 0.3 (`access-control-*` written as one value joined by
  `", "`, `typed_insert` replacing), cookie 0.14, path-tree 0.1.12, type-map, jsonwebtoken 7.2.

### Not modelled
* `tracing` output, `Debug`; `Display`/`source` of the error types other than `ClientError`, whose
  texts are in `ClientErr.v` (elsewhere errors are one `Err` outcome each, except where the source
  distinguishes them observably). The texts of other crates' errors are parameters (`texts`).
* Memory exhaustion, except the `isize::MAX` capacity panic of `String::with_capacity`.
* `poll_read_vectored`, `poll_close`; wakers.
* Extensions of requests other than the router's, `async-dup`, anything under `examples/`.
* `usize` is 64 bits.

### Deviations from the source
* `DecodeFail::{HttpNoPath, HttpNoMethod, HttpNoVersion}` cannot occur after a complete parse and
  are left out.
* The method text is compared as bytes; `Method` normalisation in `http` does not change text.
* The one-argument `glitch_code!` does not compile when used and is left out.
* `Duration`s are whole seconds.
