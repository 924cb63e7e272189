# Formal model of FreeRTOS-Cellular-Interface in Rocq (Coq 8.16.1)

Plan (written before the proofs, kept current). `properties.jsonl` lists the properties, `MANIFEST.json` maps each to
its theorems, `seeded/LOG.jsonl` records the wrong programs the theorems were tested against.

## 1. Approach

The code is modelled function by function as **executable Gallina**; every definition cites the file and lines it models.

* *Bytes* are `N`, C strings are `list N` (content before the terminator, no NUL inside), `NULL` is `None`.
* Memory the code addresses by pointer arithmetic (receive buffer, in-place string edits, destination arrays) is an
  explicit `list N` with bounds-checked loads and stores; an access outside the object or through NULL is the outcome `UB`
  of the result type `res`, an endless loop is `Diverge`, so "memory safe" and "terminates" are theorems, not assumptions.
* Concurrency (application threads, reader thread, modem, time-outs, initialisation/clean-up) is an interleaving step
  relation over explicit shared state, one label per lock-protected region or per unprotected access of the C code.
* Platform services (malloc, mutexes, queues, events, comm interface, module port functions and callbacks) are universally
  quantified: theorems hold for every behaviour of them, under a written contract where the code relies on one
  (`env_contract` in `SpecStream.v`/`PktioSafe.v`).

Where the code violates a property, the full property is kept in `properties.jsonl`, the violation is proved
(`..._refuted`, with the concrete run computed by the kernel or for all inputs of a class), and the strongest true part
found is proved (`..._partial`). Such a property has status `partial` with the note "violated by the code".

### Files in `rocq/theories/`

| model | modelled code | specification | lemmas | theorems |
|---|---|---|---|---|
| `Bytes.v` | C library: ctype, strtol, strncpy, memchr, bounds-checked memory | `SpecAt.v` | | |
| `AtCore.v`, `AtMem.v` | `cellular_at_core.c` (content level; pointer level) | `SpecAt.v` | `AtProofs*.v` | `Properties_At.v` |
| `Status.v`, `Signal.v` | status translation, library gate, CSQ/BER/bars of `cellular_common.c` | in the statements | `SignalProofs.v` | `Properties_Signal.v` |
| `Socket.v` | socket table of `cellular_common.c`, socket API of `cellular_common_api.c` | in the statements | `SocketProofs.v` | `Properties_Socket.v` |
| `RegStatus.v` | `cellular_3gpp_urc_handler.c`, registration answers of `cellular_3gpp_api.c` | `SpecReg.v` | `RegProofs.v` | `Properties_Reg.v` |
| `Pktio.v` | receive path of `cellular_pktio.c`: classification, response assembly, buffer machine | `SpecPktio.v`, `SpecStream.v`, `SpecFrames.v` | `PktioLine.v`, `PktioSafe.v`, `PktioStream.v`, `PktioText.v`, `PktioFrames.v`, `PktioHooks.v` | `Properties_Pktio.v`, `Properties_Frames.v` |
| `Whole.v` | threads (`Request.v`), receive buffer (`Pktio.v`) and undelivered bytes in one interleaving model | `SpecWhole.v`, `SpecWholeSource.v` | `WholeProofs.v`, `WholeSource.v` | `Properties_Whole.v`, `Properties_WholeLate.v` |
| `Driven.v` | `Whole.v` plus interrupt, receive callback, RX_DATA event and the reader's sleep (shutdown not modelled here) | `SpecDriven.v` | - | `Properties_Driven.v` |
| `Payload.v` | `Whole.v` plus input-buffer, data prefix and data-send prefix callbacks (copy of the pointers and call as separate steps), prompts and payloads | `SpecPayload.v` | `PayloadProofs.v`, `PayloadSteps.v`, `PayloadOwner.v` | `Properties_Payload.v` |
| `SendCmd.v` | transmit path of `cellular_pktio.c` | in the statements | `SendProofs.v` | `Properties_Send.v` |
| `PktHandler.v` | URC table, lookup and dispatch of `cellular_pkthandler.c` | `SpecUrc.v` | `UrcProofs.v` | `Properties_Urc.v` |
| `Request.v` | the five request functions of `cellular_pkthandler.c` against the reader thread and a modem | `SpecRequest.v`, `SpecAnswers.v` | `RequestInv.v`, `RequestTidy.v`, `RequestLive.v`, `RequestFull.v` | `Properties_Request.v`, `Properties_RequestAgree.v`, `Properties_Answers.v` |
| `Lifecycle.v` | init/clean-up of `cellular_common.c`, `cellular_common_api.c`, `cellular_pktio.c`, `cellular_pkthandler.c` and the reader thread's life | `SpecLifecycle.v` | `LifecycleInv.v`, `LifecycleProofs.v` | `Properties_Lifecycle.v` |
| `G3pp.v` | `cellular_3gpp_api.c` | `SpecG3pp.v`, `SpecG3ppApi.v` | `G3ppProofs.v`, `G3ppCmds.v`, `G3ppIdent.v`, `G3ppTime.v`, `G3ppCops.v`, `G3ppService.v`, `G3ppHonest.v`, `G3ppInfo.v` | `Properties_G3pp.v` |
| `Callbacks.v` | callback registration (`cellular_common_api.c`:228-359, `cellular_common.c`:1095-1161) against invocation (`cellular_common.c`:834-892, `cellular_pkthandler.c`:472-500, `cellular_pktio.c`:905-921) | `SpecCallbacks.v` | `CallbackProofs.v` | `Properties_Callbacks.v` |
| `Locks.v` | locking, waiting and sending of every API call, the reader with its callbacks, `libOpen`, `libClose` (order of mutex operations only; data-dependent decisions are non-deterministic) | `SpecLocks.v` | `LocksProofs.v`, `LocksInv.v`, `LocksLive.v` | `Properties_Locks.v` |
| `Wire.v` | what a sequence of API requests obtains from the reader's events; `Cellular_CommonATCommandRaw`, `_Cellular_GetCurrentRat` | `SpecWire.v`, `SpecTimed.v`, `SpecData.v` | `WireProofs.v`, `PktioTimed.v`, `PktioData.v` | `Properties_Wire.v`, `Properties_Timed.v`, `Properties_Data.v` |
| `RegWire.v` | composition: reader events, `_processUrcPacket`, registration handlers | `SpecRegWire.v` | `RegWireProofs.v` | `Properties_RegWire.v` |
| `AtData.v` | the accesses to `libAtData` and `libAtDataMutex`, one action per store, load and mutex operation (`cellular_3gpp_urc_handler.c:713-924`, `cellular_3gpp_api.c:1468-1494, 821-846`, `cellular_common.c:807-829`) | `SpecAtData.v` | `AtDataProofs.v` | `Properties_AtData.v` |
| `Wakeup.v` | `_Cellular_PktRxCallBack`, the wait and read loops of `_pktioReadThread`, interleaved with arriving bytes | `SpecWakeup.v` | `WakeupProofs.v` | `Properties_Wakeup.v` |
| `CmdText.v` | the accesses to `pCurrentCmd`: requests (`cellular_pkthandler.c:200-263`) and the two diagnostics of the reader (`cellular_pktio.c:403-411, 792-796`) | in the theorem statements | `CmdTextProofs.v` | `Properties_CmdText.v` |
| `Heap.v` | the receive path at pointer level: response list in malloc'ed blocks, `_saveData`, `_Cellular_AtResponseNew/Free`, `_processIntermediateResponse`, `_Cellular_ProcessLine`, `_handleMsgType`, `_handleData`, URC copies, stopping of the reader | `SpecHeap.v` | `HeapProofs.v` | `Properties_Heap.v` |
| `G3ppMem.v` | all response callbacks of `cellular_3gpp_api.c` and the registration parser of `cellular_3gpp_urc_handler.c` at pointer level (lines in a byte object, in-place AT utilities of `AtMem.v`) | `SpecMem.v` | `G3ppMemProofs*.v` | `Properties_Memory.v` |

`Properties_*.v` contain the property theorems with `Print Assumptions` and, beside each, an `Example` showing that a
concrete, non-trivial case meets the hypotheses.

## 2. Trusted base

* Coq 8.16.1's kernel (including `vm_compute`, used for concrete witnesses) and the standard library.
* **Axioms:** `Print Assumptions` prints "Closed under the global context" for every theorem in `Properties_*.v`: no axiom is
  used. (`vcheck` additionally lists seven parameters of the standard library's `Coq.ssr.ssrunder.Under_rel` module, which are
  loaded with the standard library; no theorem depends on them.)
* That the model is faithful to the C sources: the citations make it reviewable; nothing checks it mechanically.
* The C library and platform semantics in `Bytes.v`; 8-bit bytes, C locale, two's complement conversions; `long` has a
  parameter width (`bits`, 32 or more), theorems that depend on it quantify over it.

### Modelled / simplified / not modelled

Modelled: all functions of the seven `.c` files except those listed as not modelled below.

Simplified:
* `Request.v`: `PktRespMutex` regions are atomic (no blocking call inside), memory is sequentially consistent, the reader
  works on whole lines (byte level: `Pktio.v`, connected by `request_reader_agrees`), prefix-callback effects are abstracted; the command text is transmitted
  by one action (exact bytes: `SendCmd.v`, connected by `request_send_agrees`).
* `Whole.v`: text answers only (no input-buffer, data or data-send prefix callback edits or claims bytes); a line is sent by the modem in one action, delivered in any pieces; the `wire` member of `Request.v` is ghost there (which transmission a line answers).
* `Pktio.v`: buffer size is the configured 1600 (`cap` parameter where the proof allows it); callbacks of the module are an
  arbitrary reactive environment that obeys the written contract.
* `G3pp.v`: one request/response exchange is one atomic step whose outcome is chosen by an arbitrary `modem : list req ->
  answer` that sees the history of requests; response callbacks see the lines of the response (how these lines come about is
  C14-C32).
* `G3ppMem.v`: C library functions that only read a string are modelled as reading it up to its terminator (at least what they read).
* `Heap.v`: one cell per block; an arbitrary allocator returning NULL or any unused address; everybody else changes only their own
  blocks. Bounds on list loops are eventually-quantified (`eventually`).
* `Lifecycle.v`: one context (CELLULAR_CONTEXT_MAX = 1), one thread calls init/clean-up, no request in flight meanwhile.
* `Locks.v`: waiting for a response is one step that ends (the platform's finite time-out); mutexes are not recursive, as
  created; API calls start after initialisation returned the handle.
* `Wakeup.v`: recv hands over at least one byte if there are any; the comm interface calls the receive callback some time after every
  arrival.
* `Wire.v`: each request of a session is answered, or times out, before the next one is sent; no data requests, no read that finds
  the buffer full while an answer is collected (refuted: C20, C82); a command that `_Cellular_PktioSendAtCmd` refuses counts as not sent.
* configuration constants have their defaults (`cellular_config_defaults.h`); logging is ignored, except that `CmdText.v` models the two diagnostics that read the command text.

Not modelled: the comm-interface and module port implementations (outside this repository), real-time duration of
time-outs (a time-out may happen at any moment), `_Cellular_GetModuleContext` (a getter) and `_regStatusGenerateLog` (logging), weak memory, stack usage, compiler behaviour after undefined behaviour.

## 3. Per-property plan

| id | modelled | proof |
|---|---|---|
| C01, C02, C03 | AT prefix tests and removal | iff / equations against `SpecAt` relations, for all strings and NULL; bounds-checked version proved equal |
| C04, C12 | in-place removal of spaces and quotes, StrDup | loop invariants on the memory model, frame condition included |
| C05, C06 | trailing spaces, outermost quotes | refuted (strings of length <= 2; unbalanced quotes); exact behaviour otherwise |
| C07 | GetNextTok iterated by the caller's loop | induction: equals the comma split without one trailing empty field |
| C08 | GetSpecificNextTok with strtok | safe for one-character delimiters (all uses in the library); refuted for longer ones |
| C09, C10 | HexStrToHex, IsStrDigit | loop invariant; round trip by induction |
| C11 | ATcheckErrorCode with its uint8_t counter | exact for tables < 256 entries; divergence proved beyond |
| C13 | ATStrtoi over strtol | exact on int32-representable numerals; refuted outside |
| C14-C17 | classification, ProcessLine, response assembly, dispatch of every stream | case analysis; induction on line sequences; C14, C17 refuted in part |
| C18-C23, C69 | the receive buffer machine | state invariant for all chunk/callback histories, also with an environment that changes at every moment; simulation by a byte-wise line splitter; refutations with concrete streams |
| C24-C26 | SendAtCmd, SendData | equations; refutations for prefixes >= 32 bytes and short sends |
| C27-C32 | request functions / reader / modem interleaving | inductive invariants over reachable states (`RequestInv`), second invariant for runs without residue (`RequestTidy`); refutations by explicit schedules |
| C68 | the same, infinite fair executions | ranking function and fairness argument (`RequestLive`) |
| C33-C35 | AtParseInit, bsearch, URC dispatch | induction on the table / interval; iff |
| C36-C40, C70 | registration parsing, events | per-field case analysis, induction on tokens; C39, C40, C70 refuted in part |
| C41-C45 | socket table machine | invariant over all histories; C42, C43, C45 refuted in part |
| C46, C47, C49, C50 | init/clean-up with resource ledger, reader/clean-up interleaving | inductive invariants; termination measure; C49, C50, static-allocation C47 refuted in part |
| C48, C67 | library gate, status translation | case analysis |
| C51-C53 | signal conversions | case analysis with lia; C53 refuted |
| C54-C58 | PSM and eDRX decoding, commands, lists | decoding lemmas over all octets, induction over lines; refuted in part |
| C59-C65 | SIM, identity, address, time, operator, service status | composition of the AT-utility theorems along the parser; refuted in part |
| C66, C71-C73 | PDN, gate, radio/eDRX commands, honesty of return values | equations for all arguments and all modems |
| C74 | callbacks and contexts under races | interleaving system of any number of registering threads and the reader, one shared access per step; invariant over all executions; refuted by explicit schedules where the code does not lock |
| C75 | socket callback registration | equation on the heap model of sockets |
| C76 | undefined lines | the reader's dispatch composed with `_handleUndefinedMessage`, every line and verdict |
| C77 | queries answered without information | invariant along the request sequence, all functions and modems |
| C78 | the four mutexes, the start/stop hand-shake, all calls as lock programs, any number of threads (`Locks.v`) | lock-order invariant, progress and a decreasing measure; refuted for callbacks that re-enter a held mutex and for a modem that never pauses |
| C79, C80 | lifetime of the response queue and the comm interface in the same system | invariant "past the handle check implies request mutex held and queue present"; C80 refuted by an explicit schedule |
| C81 | the request/reader system of `Request.v`, segments in which the reader takes no step | invariant "a status in the queue is for a call made before; new calls carry no outcome" over the segment |
| C82 | `Pktio.v` (bytes to events) composed with `G3pp.v` (events to results) | every API function looks at the modem only through the answers to the requests it sends (causality, all functions); the C19 simulation gives the events of any fragmentation; a second simulation (`PktioTimed.v`) with an environment that changes between any two lines covers time-outs |
| C83 | `Cellular_CommonATCommandRaw` over the same composition | equation for all arguments; outcome by the session lemma |
| C84 | `_Cellular_GetCurrentRat` after a history of registration URCs | induction on the history (reports and query answers, complete or malformed) with the C36 and C70 theorems |
| C85 | the same system with a modem that answers in the announced format | third invariant (`RequestFull`): the lines collected, being read and on the way are together the lines the modem sent in answer to the current transmission, and every finished call carries the outcome they determine; progress by a decreasing measure of the reader's work |
| C86 | the same system, every modem | invariant of the segment between completion and the next set-up step |
| C87 | buffer-level reader with an arbitrary input-buffer callback, streams of lines and frames cut into arbitrary reads | induction over reads, stream invariant; three refutations at concrete streams; equality of the two readers for a declining callback |
| C88 | buffer-level reader with an arbitrary data-send prompt callback | symbolic execution of one read; equality of the two readers for a declining callback |
| C89, C90, C91 | the receive path with its heap (`Heap.v`) | refinement: heap invariant (list hangs at the pointer, nothing else owned) carried through every function, giving the list-level reader's histories; unbounded growth by a computed cycle and induction |
| C92 | the response parsers at pointer level (`G3ppMem.v`) over any object holding the lines | refinement of the string-level parsers, one lemma per AT utility relative to a region of the object, induction over tokens and lines (frame: other lines untouched) |
| C93 | comm interface FIFO, receive callback, event bits and reader thread as an interleaving system over the buffer machine (`Wakeup.v`) | invariants over all interleavings (bytes conserved; bytes waiting imply a wake-up under way); liveness over infinite fair executions by a well-founded measure; combined with C16 for the dispatched lines |
| C94 | the argument checks of CommonInit / LibInit inside `Lifecycle.v` | the checks are equivalent to `usable_arguments`; invariant over every schedule after the call |
| C95 | pCurrentCmd, its two diagnostics, any number of requesting threads (`CmdText.v`) | invariant (pointer non-NULL iff a thread is within its request; the mutex pins it); refuted for the diagnostic outside the mutex by two schedules |
| C96 | the token tables in the context, requests that bring a table of their own (`Request.v`, started with a configured extra table) | invariant over all runs; refuted by a run of three requests |
| C97 | the composition `RegWire.v` of reader, packet handler and registration handlers | induction over the chunks of any execution, against a story told by the lines; refuted for reports behind a refused line and without memory |
| C98 | threads copying the registration data against the reader storing to it, member by member (`AtData.v`) | invariant: whoever is between lock and unlock is the owner, and the data is that of the last recorded message unless the reader is storing; the single stores are proved to add up to `RegStatus.v` |
| C99 | threads, reader and comm interface composed on bytes (`Whole.v`: the threads of `Request.v`, the buffer functions of `Pktio.v`, the reader's pass cut at its accesses to shared variables) | simulation: every run on bytes is a run of the line-level model on the lines the bytes spell (`WholeProofs.v`), so C85 carries over; for the waiting thread, conversely, every line-level reader action is matched by at most three actions on bytes |
| C100 | the same, arbitrary bytes | invariant of the receive buffer under every interleaving, and simulation by runs of the line-level model without restrictions; provenance invariant (`WholeSource.v`, `SpecWholeSource.v`: all lines held anywhere are lines of the modem's bytes) |
| C101 | the API functions (`G3pp.v`) over the composition of `Whole.v` (`SpecApiWhole.v`: what the modem said to a request according to its bytes; what the thread saw) | C99 gives status and delivered lines of each request, the log of deliveries is monotone, and each API function depends only on the answers to the requests it sends (`causal_api`) |
| C102 | infinite executions of `Whole.v` (`SpecLive.v`: who keeps acting) | the lines up to the last one of the answer, the reader's progress on its line, and the bytes up to the next line end decrease with every reader action; nobody else changes them; a time-out would have to find nothing of the answer (C85) |
| C103 | `Driven.v`: `Whole.v` with the interrupt, the receive callback, the event bit and the reader that sleeps in WaitBits; `SpecDriven.v` | every action of the request path is an action of `Whole.v`, the others change nothing of it (C99 carries over); invariant: bytes in the comm interface have an owed callback, a pending event or an awake reader; hence the fairness that C102 assumes of the reader follows from that of interrupts and thread scheduling; refuted for a buffer filled to its end |
| C104 | `Payload.v`: `Whole.v` with the input-buffer callback, data prefix and data-send prefix callbacks, prompts and payloads, the copy of the callback pointers and the call being separate actions; callbacks may edit the bytes; `SpecPayload.v` (pieces of the byte stream, proper callbacks) | invariant over runs: pieces already cut, the buffer and the comm interface spell the bytes sent; payload pieces have the announced length; the responses are made of pieces; callback pointer owned by the request that is set up; refuted for late announcements and for a request that ends under the callback. Simplifications: what a callback does depends on its identity and the bytes shown only; the input-buffer callback does not edit the bytes, and runs in one action with the copy of the pointers |

Nothing in the list is considered inexpressible.

## 4. Findings (violations proved on the model)

| property | violation | theorem |
|---|---|---|
| C05 | trailing white space of strings of up to two characters stays; all-blank strings keep one blank | `c05_trailing_spaces_refuted` |
| C06 | an unbalanced leading or trailing quote is stripped | `c06_outermost_quotes_refuted` |
| C08 | multi-character delimiters: strlen(NULL) | `c08_tokenizer_safety_refuted` |
| C11 | token tables of 256 or more entries: endless loop (uint8_t counter) | `c11_keyword_table_refuted`, `c11_keyword_table_diverges` |
| C13 | out-of-range numbers are truncated silently | `c13_integer_parsing_refuted` |
| C14 | a prefixed line longer than 256 bytes is not recognised | `c14_long_line_refuted` |
| C17 | a line without the expected prefix is delivered as a response line | `c17_unprefixed_line_delivered_refuted` |
| C18 | payload announced with no command in flight: NULL dereference | `c18_late_data_refuted` |
| C19, C23 | a refused line discards the rest of its chunk, so behaviour depends on chunking | `c19_chunking_matters_refuted`, `c23_refused_line_loses_the_next_refuted`; the tail of a torn line decides a request: `c23_torn_line_decides_a_request_refuted` |
| C20 | saved response lines alias a buffer that is reset | `c20_saved_lines_overwritten_refuted`, `c20_callback_error_wipes_lines_refuted` |
| C21 | exactly full buffer: the reader stops reading | `c21_reader_stalls_refuted` |
| C22 | payload starting inside the announcing line is mangled | `c22_inline_payload_refuted` |
| C25 | response prefix of 32 bytes or more: unterminated, read past the array | `c25_long_prefix_refuted` |
| C26 | short send of a command counts as success | `c26_short_command_send_refuted` |
| C28, C29 | late answers and lines of a timed-out call are taken for the next one's | `c28_stale_status_refuted`, `c28_late_answer_refuted`, `c29_lines_of_timed_out_call_refuted`; the same in bytes: `c28_bytes_before_the_call_refuted`, `c29_bytes_before_the_call_refuted` |
| C30 | after SEND_ERROR of the data phase a command stays pending | `c30_send_error_leaves_command_pending_refuted` |
| C31 | callback runs after its request returned; NULL callback called | `c31_callback_outlives_request_refuted`, `c31_null_callback_called_refuted` |
| C33 | result of the URC-table check ignored | `c33_unsorted_table_accepted_refuted` |
| C35 | `+:text` dispatched under the wrong name | `c35_urc_dispatch_refuted` |
| C36, C39, C40, C70 | empty optional field, partial updates on error, stale TAC, spaced URC misread | `c36_..._refuted`, `c39_..._refuted`, `c40_..._refuted`, `c70_..._refuted` |
| C42, C43, C45 | double removal, creation race, unchecked PDN id | `c42_..._refuted`, `c43_..._refuted`, `c45_..._refuted` |
| C104 | a late announcement: NULL dereference with the callback of the next request; the callback runs after its request returned | `c104_late_announcement_refuted`, `c104_timeout_after_announcement_refuted` (the request may even be the right one, if it times out before the reader looks at the line), `c104_callback_after_return_refuted` |
| C47, C49, C50 | late reader shuts down a restarted static context; dangling handle; use after free in the reader | `c47_static_restart_refuted`, `c49_dangling_handle_refuted`, `c50_use_after_release_refuted` |
| C53 | invalid signal shows one bar | `c53_invalid_signal_bars_refuted` |
| C54 | unit 320 h and "other" T3324 units refused, over-wide field masked | `c54_..._refuted` |
| C55, C56, C57 | timers >= 256 truncated; read-back not writable; malformed fields unreported, empty trailing fields refused | `c55_..._refuted`, `c56_..._refuted`, `c57_..._refuted` |
| C58 | five or more eDRX lines overrun the caller's list | `c58_fifth_line_overruns_refuted` |
| C59 | no locked SIM state is ever reported | `c59_never_locked_refuted` |
| C60, C61, C62 | lower-case filler, silent truncation, missing terminator, 65536-byte buffer, quotes kept | `c60_..._refuted`, `c61_..._refuted`, `c62_..._refuted` |
| C63, C64 | malformed times and missing operator accepted (out-of-range numbers are refused: `c63_out_of_range_is_refused`) | `c63_..._refuted`, `c64_..._refuted` |
| C65 | service status always reports success; operator name may be unterminated | `c65_..._refuted` |
| C69 | payload bytes of an abandoned transfer swallow later responses (exactly the announced number of bytes: `c69_only_the_payload_is_taken_partial`) | `c69_answer_swallowed_refuted` |
| C74 | callbacks are called without the lock that registration takes: wrong context, call through NULL | `c74_mismatched_context_refuted`, `c74_null_call_refuted` |
| C78 | registration callback calling Cellular_GetServiceStatus, or input-buffer callback calling a registration function: the reader blocks on a mutex it holds; clean-up waits for ever on a busy modem | `c78_registration_callback_refuted`, `c78_input_callback_refuted`, `c78_busy_modem_refuted` |
| C80 | a request overtaken by clean-up sends on the closed interface | `c80_send_after_close_refuted` |
| C82, C83 | a read that finds the buffer full overwrites collected lines or leaves bytes unread: the fragmentation shows in API results | `c82_full_buffer_refuted`, `c83_full_buffer_refuted` |
| C84 | technology behind empty optional fields not recorded; out-of-range numbers taken modulo 2^32; an older query answer recorded after a newer report of the other domain | `c84_technology_behind_empty_fields_refuted`, `c84_number_out_of_range_refuted`, `c84_report_overtaken_by_older_answer_refuted` |
| C87, C88 | a frame directly followed by a line end or another frame in the same read; an error of the callback leaves the response in progress with references into the discarded buffer | `c87_frame_before_line_end_refuted`, `c87_empty_line_delivered_refuted`, `c87_second_frame_is_a_line_refuted`, `c87_error_spoils_the_response_refuted`, `c88_error_spoils_the_response_refuted` |
| C90 | with assertions compiled out, a failed allocation is written through | `c90_no_assertions_refuted` |
| C91 | a command in flight lets the modem fill memory without limit | `c91_unbounded_refuted` |
| C92 | five or more eDRX lines (C58) | `c92_fifth_edrx_line_overruns_refuted` |
| C93 | input that exactly fills the buffer: the answer behind it stays unread while everything is at rest | `c93_answer_left_behind_refuted` |
| C95 | pCurrentCmd loaded twice without the lock while an undefined response is reported: NULL or a dead text is printed | `c95_undefined_response_diagnostic_refuted` |
