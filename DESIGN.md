# Formal model of ahamez/netcode

Source of truth: `/repo` (read as text). Everything below is about the Coq
development in `rocq/theories` (logical name `Verif`, Coq 8.16.1).

## 1. Approach

* Every function of the library that takes part in coding, decoding, parsing
  and acknowledging is modelled by a total, executable Gallina function, one
  file of the model per file of the library. Each definition cites the file
  and lines it models.
* A call has an *outcome*: `Ok` value, `Throw` exception (the two documented
  exceptions), or `Fault` (a failed `assert`, an out-of-bounds access, a
  dereference of `end()` or of an invalidated iterator, an abort inside
  gf-complete). `Fault` is what a user calls a crash or undefined behaviour.
* Asserts: the default CMake build type is `Release` (NDEBUG), where `assert`
  vanishes. The decoder model has a `mode` parameter (`Debug`/`Release`);
  theorems quantify over it. The assertions of `galois_field.hh` 100 and 137 and of
  `invert_matrix.cc` 13 are not in the model: they hold (C66_field_assertions; both matrices have one dimension).
* The mathematics (field laws, linear combinations, inverse matrices) is
  stated in small specification files that do not use the model's helpers.
* Channel assumptions are part of the statements: the closed system
  (encoder + channel + decoder) is a transition system whose channel actions
  are "deliver packet number k of those sent", and the theorems say which
  choices of k they allow.

## 2. Modelled code and simplifications

| Model file | Library file(s) | Simplifications |
|---|---|---|
| `Outcome.v` | - | result monad |
| `GF.v` | `detail/galois_field.hh` (+ gf-complete) | gf-complete itself is replaced by polynomial arithmetic modulo its default polynomials (0x13, 0x11d, 0x1100b, 0x100400007); a host is little endian; alignment of addresses is not modelled; a region whose length is not a multiple of the word size is a fault |
| `Matrix.v` | `detail/invert_matrix.cc`, `detail/square_matrix.hh` | flat vectors are lists, an access outside is a fault |
| `Packetizer.v` | `detail/packetizer.hh`, `detail/packet_type.hh` | the handler calls are concatenated to one byte string per packet; the reused scratch buffers are local (see `Scratch.v`) |
| `Packet.v` | `packet.hh`, `detail/serialize_packet.hh` | capacity/reserve/shrink_to_fit not modelled; uninitialised bytes come from an arbitrary function; a moved-from vector is empty; `std::copy_n` has both behaviours found in standard libraries; reading behind the end of a stream is a fault |
| `Encoder.v` | `encoder.hh`, `detail/encoder.cc`, `detail/source_list.hh` | whole packets go to the handler; it cannot throw (see `Handlers.v`) or re-enter the encoder (see `ReentrantSender.v`) |
| `Handlers.v` | `encoder.hh`, `detail/packetizer.hh` | the sender again, with each single call of the packet handler, any of which may throw; proved equal to `Encoder.v` when none throws |
| `SenderMemory.v` | `encoder.hh`, `detail/encoder.cc`, `detail/source_list.hh`, `detail/packetizer.hh` | `Handlers.v` again, with each place where the sender may allocate, any of which may fail; whether a buffer has to grow is not modelled (each place is an attempt, and the numbers of attempts per call are upper bounds); proved equal to `Handlers.v` when none fails |
| `DetailDecoder.v` | `detail/decoder.cc` | ordered maps are sorted association lists; iterators into `m_repairs` and pointers into `m_sources` are keys |
| `Decoder.v` | `decoder.hh` | user handlers cannot throw (see `DecoderHandlers.v`) or re-enter (see `Reentrant.v`); the steady clock is an arbitrary sequence of readings; the callback of `m_decoder` runs after the core call, with the known ids recorded at the moment of the call |
| `DecoderHandlers.v` | `decoder.hh`, `detail/decoder.cc` | the receiver again, with each single call of both handlers at its place in the code, any of which may throw; proved equal to `Decoder.v` when none throws; for exceptions of the allocator see `ReceiverMemory.v` |
| `ReceiverMemory.v` | `decoder.hh`, `detail/decoder.cc`, `detail/packetizer.hh` | the receiver again, with the allocations at their places in the code, any of which may fail; handlers do not throw; allocations in a row whose failure leaves the same state are one attempt; an attempt is made also where capacity from earlier calls would suffice; a failure inside a `noexcept` function ends the program |
| `Reentrant.v` | `decoder.hh`, `detail/decoder.cc` | the receiver again, with a data handler that calls it (any calls, depending on all data it got); proved equal to `Decoder.v` when it makes no call; a packet given to the receiver where the code holds iterators over the callback counts as the fault `DeadIterator`, although some would do no harm; the nesting of calls is bounded by fuel; the handler catches the exceptions of its calls |
| `ReentrantSender.v` | `encoder.hh`, `detail/packetizer.hh` (writing) | the sender again, with a packet handler that calls it (any calls, depending on all calls it got); proved equal to `Encoder.v` when it makes no call; data, packets and repairs given while a packet is handed over in pieces count as the fault `DeadIterator`, although some would do no harm; the nesting of calls is bounded by fuel; the handler does not throw and catches the exceptions of its calls |
| `Scratch.v` | `detail/packetizer.hh`, `encoder.hh`, `detail/encoder.cc`, `detail/repair.hh`, `detail/decoder.cc`, `detail/square_matrix.hh`, `packet.hh` | sender and receiver again, with the members that are used again (buffers of the packetizer, repair, matrices, index) and with uninitialised memory; their contents at the start of each use are arbitrary, what a call leaves there is not returned; the handlers of the receiver do not throw |
| `Iterators.v` | `detail/decoder.hh`, `detail/decoder.cc` | the receiver again, with an address for each element of `m_repairs`, `m_sources` and `m_missing_sources`; addresses are never reused; pointers into the ordered set and `m_index` are addresses; iterators local to one statement are not kept |
| `Dispatch.v` | `dispatch.hh` | - |
| `CApi.v` | `c/detail/check_error.hh`, `ntc_decoder_add_packet`, `ntc_encoder_add_packet` | the heap holds only the messages; `delete` of a block from `new[]` is accepted |
| `Tunnel.v` | `examples/accelerator/transcoder.hh` | two programs; sockets are a network that loses, repeats, delays and reorders datagrams; timers expire at any time; statistics output not modelled; the address of the other side is right |
| `AckPeriod.v` | `decoder.hh` (`maybe_ack`) | the receiver again, with the durations of `std::chrono` as 64-bit numbers whose overflow is a fault; proved equal to `Decoder.v` for periods up to 292 years; a fault of the decoding hides an overflow earlier in the same call |
| `CSession.v` | `c/data.cc`, `c/packet.cc`, `c/encoder.cc`, `c/decoder.cc`, `c/detail/handlers.hh` | one encoder, decoder, data and packet object; the callbacks get whole packets and data and do not throw; a moved-from vector is empty; the durations are unbounded (see `AckPeriod.v`) |
| `CObjects.v` | the same files with the functions that make and delete objects | any number of objects, each pointer in one variable of the program (no copies of pointers); a deleted address is never given out again; each call is that of `CSession.v` on the objects behind its arguments; each error has its own messages |
| `Proxy.v` | `tools/lossy_proxy.cc`, `tools/loss/*.hh` | the random engine is any sequence of numbers of 1..100, the same for every engine object (both are default-seeded); sockets deliver whole datagrams; the arguments are numbers, `atoi` is not modelled; console output not modelled |
| `Tools.v` | `tools/replay.cc`, `tools/source_forwarder.cc` | the file and the datagrams are byte lists; the console output is not modelled |
| `Oneway.v` | `examples/accelerator-oneway/sender.cc`, `receiver.cc` | both programs, the network between them loses, repeats and delays; the statistics are not modelled; the addresses are right |
| `Basic.v` | `examples/basic/cpp_basic.cc`, `c_basic.c` | one round per datum, continued for any number of data; the buffers of the C program have their sizes, a longer write is a fault; printing left out; the C functions are the calls they wrap (`CApi.v`) |
| `Multi.v` | (no file) | one `encoder` whose packets go to several `decoder`s and which gets the acks of each; a fault ends only the receiver that has it |
| `Senders.v` | (no file) | several `encoder`s whose packets go to one `decoder`; its acks may reach each of them |
| `Mixed.v` | (no file) | `System.v` with an `encoder` and a `decoder` that were given different fields |
| `EndToEnd.v` | `tests/end_to_end.cc`, `tests/end_to_end_mt.cc` | `loss()` is any sequence of booleans; packets reach the handlers as a whole; the threads take turns at the granularity of their critical sections; the unsynchronised flag `run` and the output are not modelled; little-endian words |
| `System.v` | - | closed system: sender, channel, receiver |

Details of `System.v`: a world is an encoder, a decoder, all packets the sender
emitted, all acks the receiver emitted, the packets that arrived and the data
handed out. An action is a call of one side's API, the arrival of any packet
emitted so far (so packets may be lost, repeated, delayed and reordered) or
the arrival of any ack. `normal` worlds (`PropsSystem.v`) are those reached when no
repair arrives after a newer one; `w_lists` is a ghost field with the id lists of
emitted repairs, used to state that they fit the wire format.
With 32-bit words the library keeps only 16 bits of the product of a size and a coefficient;
`sizes_fit` (`System.v`) says that no bit is lost. It is part of `within_limits` and is
trivial for the other fields.
`DecoderHeld.v`, `DecoderCount.v`, `SystemInv.v`, `SystemRun.v`, `Genuine.v`, `DecoderThrow.v`,
`DecoderRecover.v`, `SystemArrive.v`, `DecoderProgress.v`, `DecoderPrompt.v`,
`SystemFifo.v`, `SystemLossless.v`, `SystemAnyCode.v`, `DecoderOrder.v` and the other files without an entry here contain
proofs only. `lossy_fifo` worlds (`PropsFifo.v`) are those reached when no packet
arrives after a newer one.

Details of `DetailDecoder.v`:

* `m_missing_sources` maps a source to iterators into `m_repairs`. The model
  keeps the key of the repair. A key that is no longer present when the code
  would dereference the iterator is `Fault DeadIterator`. A stale iterator
  whose key was inserted again is not told apart from a fresh one here; `Iterators.v`
  tells them apart, and C78 proves that it makes no difference.
* The model keeps the erasures in the order of the code. The invalidation of reverse
  iterators of `flat_set` by the erasure of a later element is the parameter `strict`
  of `Iterators.v` (C78_documented_rule and its refutation).
* In `Release`, a full decoding with more repairs than missing sources reads
  elements of an earlier use: `Fault Uninitialised` (`Scratch.v` computes with them).
* `d_log` and `dc_reads` are ghost fields: the calls of the callback so far
  and the readings of the clock so far. `m_nb_useless_repairs`,
  `m_nb_failed_full_decodings` and `m_nb_decoded` do not wrap.

Not modelled: memory exhaustion in the tools and the C objects, thread interleavings (the library has no
locks; one object per thread is assumed), the argument parsing and console output of the tools, copies of the pointers a C program holds,
`NTC_DUMP_PACKETS` (except the dump format), the numeric limit of `size_t`
counters.

## 3. Properties: what is modelled and how it is proved

(The exact theorem names are in `MANIFEST.json`.)

* C01-C04, C06-C09 wire format: reader and writer functions on byte lists;
  induction on the run-length encoding; C04 also the converse direction.
* C05, C08: the reader is a total function whose only failures are `Throw
  Overflow`; a lemma bounds the number of bytes read for all inputs.
* C10: case analysis on the first byte.
* C11: field laws by bilinearity of shift-and-xor multiplication; inverses
  because the polynomial is primitive: `x` has order exactly `2^w - 1`
  (checked by computing a few powers), hence by a pigeonhole argument every
  non-zero element is a power of `x`. `GFPoly.v` states products and remainders of polynomials by their coefficients and shows
  that the product of the model is the unique remainder, and lifts this to the symbols of a region (C13, C14, C17).
* C12: modular arithmetic. C13, C14: lifting of the field laws to byte lists;
  w = 32 size truncation refuted by a computed witness.
* C15, C16: loop invariants for the elimination (`inv * M0 = mat`, triangular
  shape, equality of kernels).
* C17-C26: encoder state machine, invariants over all histories; C22 with the
  Flocq model of binary64 rounding.
* C27-C31, C33-C38, C44, C49: decoder invariant: every stored repair is the linear
  combination of the original sources over its remaining ids, every known
  source is original, links between missing sources and repairs are exact.
* C32: computed witnesses. C39-C41: outer decoder state machine, an invariant
  over all histories of calls (`DecoderOuter.v`). C41_new_sources (PropsCount.v, both delivery modes) compares nb_decoded()
  with the sources that a call adds; without assertions only an inequality is proved.
* C30, C37: over a FIFO channel the missing sources of the stored repairs form a
  staircase (`DecoderProgress.v`), which excludes all faults; in order mode nothing
  that could be delivered waits (`DecoderPrompt.v`). C30_any_length and C30_far_refuted (PropsLong.v): the same for any number
  of data below 2^32 while the identifier lists fit the format, and an access out of bounds where they do not.
* C42-C43: invariants of the closed system. C43_any_length (PropsLong.v) drops the limit of 65535 data: fewer than 2^32 data, as long as
  the identifier lists fit the format. C43_far_refuted shows that this condition is needed: with 65537 data, of which the first and the
  last are lost, the repair of the two reads as a repair of the first alone, and the receiver hands over bytes nobody sent.
* C89: the invariant of C42 (`SystemLossless.v`) for any code (`SystemAnyCode.v`). Each packet is about at most one datum
  that no earlier packet is about; a source delivers it, and so does a repair, whose other sources are known.
* C90: a potential (`DecoderBound.v`): data handed over, data waiting, and each repair kept, weighed 1 or 2. A packet adds its weight
  once, a decoded source is paid by the repair it consumes. Nothing is assumed about the bytes. Weight 1 needs that the number of
  the next source never wraps.
* C91: dependence is stated by weights on the rows (`Twins.v`). Rows that add up to zero exclude a right inverse, so each full
  decoding fails, and the failed index is that of the greatest number: over an in-order channel the repair that just arrived.
* C92: the invariant of `DecoderProgress.v` (each stored repair covers more sources than there are repairs up to it) is inherited by
  selections, and fewer equations than unknowns never determine these. The other direction is the argument of C57 for an arbitrary
  change of one word of the data (`Determined.v`): integrity holds for the changed data as well.
* C93: while two data are missing at most one repair is kept (`TwoLosses.v`). A failed attempt drops one of two repairs with
  determinant zero, and rows that are multiples of the same row are multiples of each other, so the kept row represents all rows
  seen. C34 gives the recovery at the first row that is no multiple of it; the explicit numbers come from the formula of the coefficient.
* C94: by induction over a run without acks the window is an interval that ends at the newest datum, and a repair that a step emits
  covers the window after that step. The first source of every arrived repair bounds what is outdated (a repair that is ignored as a
  duplicate is the same packet, as numbers of repairs do not repeat below 2^32); C37 gives the delivery.
* C95: what a repair leaves out below its newest datum was acknowledged, hence held or outdated (`ch_gone` of `SystemInv.v`), or is
  older than its first datum, hence outdated since the repair arrived (the lemma of C94).
* C96: each function of `SenderMemory.v` equals the one of `Handlers.v` while memory suffices; the state where an allocation fails is read off
  function by function.
* C97: one comparison of `ReceiverMemory.v` with `DecoderHandlers.v`, function by function: equal while memory suffices, otherwise the calls of the
  user so far are a beginning of the calls of the other model. The refutations are computed runs.
* C98: in a run without loss the receiver never uses its field (`Mixed.v`): by the invariant of C42 each repair that arrives is about known data, so that
  the run with another field is the same run with the field replaced.
* C99: a restart is a run of `Multi.v` in which the second receiver takes the place of the first (C84). An ordered receiver whose next datum is 0 and that has no repair
  keeps this state with every source but 0. The refutation is a computed run.
* C100: `Repeat.v` shows that `recv_repair` on its own result changes a counter only (dropping older things is idempotent; a decoding that failed has the same
  matrix the second time, so it fails at the same column). `Tally.v` shows that the two counters influence nothing, so the equality lasts for the whole run;
  the calls about acks are removed with C51. No model is added.
* C45, C46, C47, C48: small state machines.
* C50: counting argument on the encoder plus a one step property of the
  decoder.
* C57: integrity (C27) proved a second time, for data that differ from those sent
  but fit all packets that arrived (`BlindSpot.v`): the receiver cannot have
  delivered anything in which they differ. C58: besides, an invariant of the
  receiver (`Stall.v`): each stored repair combines both data.
* C53, C54: the sender with single handler calls (`Handlers.v`) against the sender
  with whole packets; induction on the calls. The corruption after a
  caught exception is a computed witness.
* C59-C61: the receiver with its handlers called during the decoding
  (`DecoderHandlers.v`): a simulation relates it to the receiver that lists the calls
  (`DecoderHandlersFacts.v`); so running the callbacks after the call of the core, as
  `Decoder.v` does, is justified. The states left by exceptions are shown by
  computed witnesses.
* C55: error bounds of the three double precision operations (`RateExact.v`, with
  Flocq) decide all ratios that are not integers; the 50 integer ratios are
  computed. C56: induction on the calls.
* C62: the exact layout of each packet (C02, C17) and the cost of identifier lists
  (C09). C63: a simulation between two receivers whose stored repairs differ only in
  the bytes behind their symbols (`DecoderSuffix.v`).
* C64: each direction of the tunnel is a run of the closed system (C30, C29, C42), up to
  the bytes behind a datagram (C63) and as long as the datagrams fit (C62).  The acks: an invariant on the flag of the other side, over runs.
* C65: a loop invariant of the packet object (usable or moved away); each group of calls is one step of the
  C++ objects.
* C66: every function of the model is compared in both modes (`agree`), by induction on the loops.
* C67: counting below the invariants of the receiver (`ge`, `calm`), and an induction on the packets.
* C68: the fate of the k-th datagram of a direction is a function of the loss object and k; a run of the system through
  the proxy is a run of the closed system whose arrivals are sorted, so C30, C29 and C42 apply.
* C69: each round of the tool is one step of the decoding state, which depends on the packets only (C51).
* C70: the parser on a buffer of fixed length, computed.
* C71: like C64, with equal states instead of similar ones, since the receiver resizes its packet; the ends by C06.
* C72: every repair covers the window, which holds the sources of its group and only older ones that the receiver has
  or has given up (`covers`); with one loss per group a repair has at most one unknown, so it is
  decoded at once (C33). Induction on the repairs (`SystemGroups.v`).
* C73: the exact ack (C39), its round trip (C03) and what it erases (C18); a datum of the window is not below the
  first datum of any repair emitted so far, hence not obsolete.
* C74: each function of `Scratch.v` equals the one of the other models, for all contents of the memory
  (`ScratchFacts.v`): buffers are cleared before they are filled, each matrix entry is written before it is read (when
  there are as many repairs as missing sources), each byte of a recovered datum is written or zero before it is read.
* C75: a bound of a product by the lengths of its factors, and the history of the sender, give `sizes_fit` for short runs;
  when a repair of one datum is the first packet to arrive, the whole step is computed symbolically, for every datum.
* C76: an invariant of runs: a datum leaves a window that is never full only because of an ack, which lists what is held or
  obsolete (C44), and what is in the window is not obsolete (C73); what is held stays so or is delivered (C37).
* C77: both programs are mirrored by runs of the closed system in which nothing throws (C30), which gives the order and the contents
  of what the handler sees (C76).
* C78: a simulation (`IteratorsFacts.v`) between the receiver with addresses and the one with keys, for arbitrary packets. Its invariant:
  each iterator linked to a missing source is the address of a living repair that encodes this source (the converse is false after the erasure in
  line 140), each waiting pointer is the address of a living source with this identifier.
* C79: a simulation (`ReentrantFacts.v`) for callbacks that leave the decoding state, for any relation between what the handlers got and the log; computed
  witnesses for callbacks that give the receiver a packet.
* C80: a separate description of the bytes (`PropsWire.v`: big-endian numbers, runs of gaps), related to what is written by the facts behind
  C01-C04 and to what is read by an equivalence with a parser (`PacketizerFacts.v`); what is sent is tied to the histories of C16-C20 and C39.
* C81: each sequence of nested calls is flattened into a run of the plain encoder (`plainly`, induction on the depth). A datum becomes the datum
  under a high rate, the calls of the handler, then the repair if due; this works because only the number of the next datum is written after the
  calls of the handler, and the other calls do not use it (`estep_shift`).
* C82: invariant of the rounds: the sender has the last 32 data with consecutive numbers (the repair then has 20 bytes and
  twice the longest datum), the receiver has all sources, no repair, fewer than 50 packets since its last ack. The bytes of the acks are
  bounded above by 12 per round, 15 from round 258 on, and below by a potential: an ack after round i pays for at most 50 rounds with weights up to 763 + i.
* C83: a separate reading of the bytes of a source (`source_of`) and a list of the first source of each identifier; invariant `plain`: without
  a repair the receiver has no missing identifier, holds exactly this list, and its queue has the part beyond the first identifier not seen.
* C84: what one receiver sees is a run of the closed system (`view`), if no ack of another arrives; so C43 applies to each. The two
  refutations are small runs with acks of another receiver, computed.
* C85: invariant of the senders and the receiver: each packet is a repair or the source of a datum of one of the senders, the receiver is `plain`
  (C83) with the packets that arrived. The refutations are runs of a sender that is started again, computed.
* C86: invariant: the last ack date and the period in nanoseconds are 64-bit numbers; equality of both models by induction over the calls. A longer period overflows at the first callback. With a negative period every callback sends an ack; the C program reduces to this through C65_program.
* C87: two records along a run: for each ack the number of arrived packets when it was emitted, for each accepted ack its place and the number of emitted packets. Invariant: the sender's counter is the number of packets emitted since the last entry, the ack with place j carries the difference of the entries j and j - 1 (both modulo 65536). The rate follows with C55.
* C88: a call depends on and changes only the variables it names; induction over the program for all groups at once. The kinds of the living objects are computed from the text of the program and match the store after each call. `CSession.v` is simulated by the five variables of a connection, which gives C65 for each connection.
* C39 and C40 also in `PropsAcks.v`: the contents behind an ack by the invariant of the closed system; the schedule of the acks of a call as
  an inductive relation.
* C51, C52: relations between two runs: the decoding state depends on the packets
  only; a simulation between the ordering and the other receiver
  (`DecoderOrder.v`) whose states differ only in the ordering fields and the log.

## 4. Trusted base

* The Coq kernel (8.16.1) including its `vm_compute` conversion.
* The axioms printed by `Print Assumptions` under each theorem (listed in the
  table at the end of this file; most theorems are closed under the global
  context).
* That the model follows the code (each definition cites the lines).
  `Conformance.v` runs the library's own unit tests (tests/netcode) on the model:
  every required value is computed. This is a test of the model, not a proof; the
  header of the file says which tests have no counterpart and which use shorter data.
* gf-complete: default polynomials and region layout as stated above.

### Axioms

All theorems are closed under the global context, except those that speak
about the adaptive code rate in binary64 arithmetic (C22, C23, C24, C55), and
C18_wraparound_refuted, C19_shrink_refuted, C30_fifo_runs, C30_any_length, C30_far_refuted, C43_end_to_end, C43_any_length, C43_far_refuted, C84_only_own_acks, C84_no_acks, C99_without_old_acks, C85_sources_only,
C50_wraparound_refuted, C64_tunnel, C64_small_data, C64_lossless, C66_fifo, C66_any_length, C81_careful_handlers, C81_one_datum, C81_depth, C87_perceived, C87_all_heard, C87_unheard_acks and the theorems of C71 and C77,
which use the same safety lemma of the sender. They are proved with Flocq over the reals of the standard
library and depend on the standard library's axioms
`ClassicalDedekindReals.sig_not_dec`, `ClassicalDedekindReals.sig_forall_dec`,
`FunctionalExtensionality.functional_extensionality_dep` and
`Classical_Prop.classic`.
