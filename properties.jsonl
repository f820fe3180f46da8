{"id": "C01", "title": "Source packet round trip", "statement": "For every piece of data of at most 65535 bytes and every 32-bit identifier, the bytes that the encoder hands to its packet handler for a source packet are parsed back by the receiver into the same identifier and exactly the same bytes, and the reported number of bytes read is the whole packet. From 65536 bytes on the guarantee is false: the length field wraps.", "quantifier": "all identifiers < 2^32, all byte strings of length < 65536 (and a counterexample at 65536)", "why_tests_cant": "The space of byte strings and identifiers is unbounded; tests use a handful of literals.", "anchors": ["netcode/detail/packetizer.hh:write_source", "netcode/detail/packetizer.hh:read_source"]}
{"id": "C02", "title": "Repair packet round trip", "statement": "For every repair (identifier, set of encoded source ids, encoded size, symbol) whose id set fits the wire format, the emitted packet is parsed back into the same identifier, ids, encoded size and symbol. The number of bytes reported as read is strictly smaller than the emitted packet: the trailing copy of the symbol and of its size is never consumed.", "quantifier": "all repairs with a strictly increasing id list with gaps below 65536 that is encoded in at most 65534 runs, and symbols of 1 to 65535 bytes", "why_tests_cant": "Needs all id sets and all symbols; run-length compression has many corner cases (runs of 255, gaps).", "anchors": ["netcode/detail/packetizer.hh:write_repair", "netcode/detail/packetizer.hh:read_repair"]}
{"id": "C03", "title": "Ack packet round trip", "statement": "For every number of received packets and every set of acknowledged ids that fits the wire format, the ack emitted by the decoder is parsed back by the encoder into the same set and number, consuming the whole packet.", "quantifier": "all 16-bit counters, all strictly increasing id lists (also empty) with gaps below 65536 and fewer than 65535 runs", "why_tests_cant": "Needs all id sets.", "anchors": ["netcode/detail/packetizer.hh:write_ack", "netcode/detail/packetizer.hh:read_ack"]}
{"id": "C04", "title": "Exact limit of the id compression", "statement": "A set of source ids survives the trip through a repair or ack packet if and only if consecutive ids differ by less than 65536 (as long as the number of runs fits 16 bits). A set with a larger gap is silently changed into another set, so an ack can acknowledge a source that was never received.", "quantifier": "all strictly increasing lists of 32-bit ids", "why_tests_cant": "The failing inputs need an id gap of at least 65536, far outside the unit tests; the positive side needs all lists.", "anchors": ["netcode/detail/packetizer.hh:write(source_id_list)", "netcode/detail/packetizer.hh:read_ids"]}
{"id": "C05", "title": "Parsing arbitrary bytes is memory safe", "statement": "For every non-empty byte string, parsing it as a source, repair or ack packet either raises an overflow error or returns a value after reading only bytes inside the packet; the number of bytes reported as read never exceeds the packet size.", "quantifier": "all byte strings", "why_tests_cant": "All byte strings of all lengths, i.e. all possible network inputs.", "anchors": ["netcode/detail/packetizer.hh:read", "netcode/detail/packetizer.hh:read_ids", "netcode/detail/packetizer.hh:read_ack", "netcode/detail/packetizer.hh:read_repair", "netcode/detail/packetizer.hh:read_source"]}
{"id": "C06", "title": "Truncated packets are always rejected", "statement": "If a packet can be parsed with n bytes read, then every shorter prefix (fewer than n bytes) of that packet raises an overflow error: no truncated packet is ever accepted as another packet.", "quantifier": "all parseable packets, all prefixes", "why_tests_cant": "Every packet and every cut position.", "anchors": ["netcode/detail/packetizer.hh:read", "netcode/detail/packetizer.hh:read_ids"]}
{"id": "C07", "title": "Parsing depends only on the bytes it reports as read", "statement": "Appending arbitrary bytes to a parseable packet changes neither the parsed identifier, ids, encoded size or symbol nor the number of bytes read.", "quantifier": "all parseable packets, all suffixes", "why_tests_cant": "All packets and all suffixes.", "anchors": ["netcode/detail/packetizer.hh:read_ack", "netcode/detail/packetizer.hh:read_repair", "netcode/detail/packetizer.hh:read_source"]}
{"id": "C08", "title": "Parsed id lists are well formed", "statement": "Whatever bytes are received, a successfully parsed list of source ids is strictly increasing (sorted, no duplicates) and made of 32-bit ids.", "quantifier": "all byte strings", "why_tests_cant": "All byte strings, including overflowing differences and zero differences.", "anchors": ["netcode/detail/packetizer.hh:read_ids"]}
{"id": "C09", "title": "Cost of the id list on the wire", "statement": "A list of n consecutive ids costs exactly 6 + 3*ceil((n-1)/255) bytes on the wire; any non-empty list of n ids costs between 6 and 6+3(n-1) bytes.", "quantifier": "all id lists", "why_tests_cant": "All lengths and all lists.", "anchors": ["netcode/detail/packetizer.hh:write(source_id_list)"]}
{"id": "C10", "title": "Packets are routed by type and foreign packets rejected without effect", "statement": "dispatch() gives acks to the encoder and sources/repairs to the decoder. An encoder given a non-ack packet, a decoder given an ack packet, and both given an unknown type byte raise a packet type error, emit nothing, deliver nothing and keep their entire state.", "quantifier": "all packets, all encoder and decoder states", "why_tests_cant": "All byte strings and all reachable states.", "anchors": ["netcode/dispatch.hh:dispatch", "netcode/detail/packet_type.hh:get_packet_type", "netcode/encoder.hh:notify_impl", "netcode/decoder.hh:operator()"]}
{"id": "C11", "title": "Coefficient arithmetic is a field", "statement": "For Galois field sizes 4, 8, 16 and 32, multiplication of coefficients is associative, commutative, distributes over xor, has unit 1, has no zero divisors, and every non-zero coefficient times its inverse is 1. The product is the one that gf-complete's documentation promises: the remainder of the product of the two polynomials over GF(2) modulo x^4+x+1, x^8+x^4+x^3+x^2+1, x^16+x^12+x^3+x+1 or x^32+x^22+x^2+x+1.", "quantifier": "all field elements of GF(2^4), GF(2^8), GF(2^16), GF(2^32)", "why_tests_cant": "2^96 triples for w = 32; the unit tests check a few values.", "anchors": ["netcode/detail/galois_field.hh:multiply", "netcode/detail/galois_field.hh:invert"]}
{"id": "C12", "title": "Coefficients are never zero", "statement": "For every repair id and source id (32-bit wrap-around included) and every supported field size the coefficient is a non-zero element of the field.", "quantifier": "all pairs of 32-bit ids, w in {4,8,16,32}", "why_tests_cant": "2^64 pairs of ids.", "anchors": ["netcode/detail/galois_field.hh:coefficient"]}
{"id": "C13", "title": "Encoded sizes are recoverable", "statement": "For field sizes 4, 8 and 16, multiplying any 16-bit size by any coefficient and then by its inverse gives the size back, and the operation is linear. For field size 32 this is false (the product is truncated to 16 bits): sizes recovered by the decoder can be wrong. For field sizes 4, 8 and 16 the encoded size is the symbol-wise product of the two little-endian bytes of the size; for 32 it is the low half of the product.", "quantifier": "all 16-bit sizes, all non-zero coefficients", "why_tests_cant": "All sizes times all coefficients; the w=32 failure only shows for coefficients or sizes larger than those of the unit tests.", "anchors": ["netcode/detail/galois_field.hh:multiply_size"]}
{"id": "C14", "title": "Region arithmetic is linear and invertible", "statement": "For every byte region whose length is a multiple of the word size: multiplying by c and then by 1/c restores the region, adding c times a region twice restores the target, multiplication distributes over xor of regions, and commutes with truncation and zero padding. Each symbol of the result (half byte, byte, or little-endian word of two or four bytes) is the field product of the coefficient and the symbol at the same place, added to the target's symbol for the adding operation, and nothing behind the region changes.", "quantifier": "all regions, all coefficients, all field sizes", "why_tests_cant": "All byte strings and coefficients.", "anchors": ["netcode/detail/galois_field.hh:multiply(region)", "netcode/detail/galois_field.hh:multiply_add"]}
{"id": "C15", "title": "Matrix inversion is sound", "statement": "Whenever inversion reports success, the computed matrix is a two-sided inverse of the given one. No access is outside the matrices.", "quantifier": "all square matrices of every dimension >= 1 over every supported field", "why_tests_cant": "All matrices of all dimensions.", "anchors": ["netcode/detail/invert_matrix.cc:invert", "netcode/detail/square_matrix.hh"]}
{"id": "C16", "title": "Matrix inversion fails exactly on singular matrices, and always blames the last column", "statement": "Inversion fails if and only if some non-zero vector is mapped to zero. The reported index is always the last one, whichever row is dependent, so the decoder always drops the repair with the largest id.", "quantifier": "all square matrices of every dimension >= 1", "why_tests_cant": "All matrices; tests only contain one singular example.", "anchors": ["netcode/detail/invert_matrix.cc:invert"]}
{"id": "C17", "title": "A repair is the stated linear combination of exactly the outstanding sources", "statement": "Every repair packet emitted by the encoder lists exactly the ids of the sources currently in the window, its symbol is as long as the longest of them and equals byte for byte the xor over the window of coefficient times the zero-padded source, and its encoded size is the same combination of the sizes. Written out: with base = ((r+s+2)(r+1)) mod 2^32 for the repair id r and a source id s, each symbol of the repair is the sum over the window of the products of (base mod (2^w-1)) + 1 (for w = 32 of base, or 1 if that is 0) with the symbols of the sources at the same place.", "quantifier": "all encoder histories with at most 2^32 data of fewer than 65536 bytes each (for longer histories the listed ids are still those of the window, as a set), all windows", "why_tests_cant": "All windows and data contents.", "anchors": ["netcode/detail/encoder.cc:operator()", "netcode/encoder.hh:generate_repair"]}
{"id": "C18", "title": "Acks remove exactly the acknowledged sources", "statement": "Processing an ack removes from the encoder's window precisely the sources whose ids are listed, keeps all others in order, ignores unknown ids, and is idempotent, as long as at most 2^32 data were given. After more data it is false: ids start again at 0, the window is no longer sorted, and an ack of the newest source can remove nothing.", "quantifier": "all windows reachable by the encoder with at most 2^32 data, all acks; a legal history for the refutation", "why_tests_cant": "All pairs of windows and id lists.", "anchors": ["netcode/detail/source_list.hh:erase", "netcode/encoder.hh:notify_impl"]}
{"id": "C19", "title": "Window bound", "statement": "If the window size is set to N while at most N sources are outstanding, then after any further history of data, acks, forced repairs and other configuration calls at most N sources are outstanding, and the window is exactly the one given by the simple rule: a new data is appended and only the last N entries are kept, an ack removes what it lists. Lowering the window size below the current number of outstanding sources breaks the bound for ever: the window then grows with every data without limit.", "quantifier": "all histories of data, acks and calls with fewer than 2^32 data, all N", "why_tests_cant": "All histories; the failing history needs a configuration change at run time.", "anchors": ["netcode/encoder.hh:commit_impl", "netcode/encoder.hh:set_window_size", "netcode/detail/source_list.hh:pop_front"]}
{"id": "C20", "title": "Source and repair identifiers", "statement": "Along any history the n-th data (counting from 0) gets source id n modulo 2^32 and the n-th repair gets id n modulo 2^32; ids of outstanding sources are strictly increasing and pairwise distinct as long as fewer than 2^32 data were given.", "quantifier": "all histories", "why_tests_cant": "All histories, including 2^32 calls.", "anchors": ["netcode/encoder.hh:commit_impl", "netcode/encoder.hh:mk_repair"]}
{"id": "C21", "title": "Code rate", "statement": "With a constant rate k, after n data given to a systematic encoder exactly n source packets and floor(n/k) repairs were emitted automatically; with a non-systematic encoder no source packet and n + floor(n/k) repairs.", "quantifier": "all n < 2^32, all k >= 1, all data, with arbitrary packets (acks, junk) interleaved", "why_tests_cant": "All n and k and all interleavings with acks.", "anchors": ["netcode/encoder.hh:commit_impl"]}
{"id": "C22", "title": "Adaptive rate stays between 1 and 50", "statement": "Whatever ack arrives (any counter values, also inconsistent ones), the rate computed by an adaptive encoder is between 1 and 50, so that the next data never divides by zero. Holds for the double precision computation of the code, including rounding.", "quantifier": "all pairs of 16-bit counters", "why_tests_cant": "2^32 pairs of counters, floating point rounding.", "anchors": ["netcode/encoder.hh:rate_for_loss", "netcode/encoder.hh:notify_impl"]}
{"id": "C23", "title": "The encoder survives arbitrary network input", "statement": "For every non-empty byte string received by the encoder in any state, the call ends normally or with one of the two documented exceptions, and never with undefined behaviour. If it raises, the window, the rate and the emission counters are unchanged.", "quantifier": "all byte strings, all encoder states", "why_tests_cant": "All network inputs.", "anchors": ["netcode/encoder.hh:operator()(packet)", "netcode/encoder.hh:notify_impl"]}
{"id": "C24", "title": "Forcing a repair is safe exactly when something is outstanding", "statement": "generate_repair() on an encoder with an empty window (for instance after everything was acknowledged) is undefined behaviour; with a non-empty window it always emits exactly one repair packet. A history of legal calls (data of 1 to 65535 bytes and whole words, any non-empty packets, rates and window sizes above 0) goes wrong in no other way.", "quantifier": "all encoder states; all legal histories", "why_tests_cant": "All states; tests never call it with an empty window.", "anchors": ["netcode/encoder.hh:generate_repair", "netcode/encoder.hh:mk_repair", "netcode/detail/encoder.cc:operator()"]}
{"id": "C25", "title": "Encoder counters agree with the emitted packets", "statement": "Along any history nb_sent_sources() and nb_sent_repairs() equal the numbers of source and repair packets emitted, nb_acks() the number of ack-typed packets received.", "quantifier": "all histories; the counters are compared modulo 2^64, the range of std::size_t", "why_tests_cant": "All histories.", "anchors": ["netcode/encoder.hh:commit_impl", "netcode/encoder.hh:generate_repair", "netcode/encoder.hh:notify_impl"]}
{"id": "C26", "title": "Systematic and non-systematic output", "statement": "A systematic encoder emits, for each data, first one source packet carrying the data verbatim. A non-systematic encoder never emits a source packet and emits at least one repair that covers the new data.", "quantifier": "all histories (the part about the ids in repairs: data of fewer than 65536 bytes)", "why_tests_cant": "All histories.", "anchors": ["netcode/encoder.hh:commit_impl"]}
{"id": "C27", "title": "Integrity: every delivered datum is an original datum", "statement": "Over any channel that loses, duplicates, delays and reorders source packets and acks arbitrarily and loses or duplicates repairs but never lets an older repair overtake a newer one, every byte string handed to the receiver's data handler is exactly a datum given to the sender (all four field sizes; data of 1 to 65535 bytes, a multiple of the word size; id lists that fit the repair format, which holds for the first 65535 data; with 32-bit words only while the product of the size of each datum and its coefficient in each repair stays below 65536, see C75). If repairs are reordered, the receiver can deliver corrupted data.", "quantifier": "all field sizes, all histories of the sender, all channel schedules without repair overtaking, within the limits of the formats", "why_tests_cant": "All interleavings of losses, delays and acks, all data; the corrupting schedule is not in any test.", "anchors": ["netcode/detail/decoder.cc:operator()", "netcode/detail/decoder.cc:attempt_full_decoding", "netcode/detail/decoder.cc:add_source_recursive", "netcode/detail/decoder.cc:155-195"]}
{"id": "C28", "title": "At most once delivery", "statement": "Under the same channel assumption as C27 no datum is delivered twice. If an older repair overtakes a newer one, a datum can be delivered twice even without any loss.", "quantifier": "all histories, all channel schedules without repair overtaking; within the limits of the formats (legal data, fewer than 2^32 of them, identifier lists that fit; at most 65535 legal data always do, see C27)", "why_tests_cant": "All schedules.", "anchors": ["netcode/detail/decoder.cc:operator()", "netcode/detail/decoder.cc:drop_outdated"]}
{"id": "C29", "title": "In-order delivery", "statement": "Under the same channel assumption, a decoder created with in_order::yes delivers data in strictly increasing sending order. If an older repair overtakes a newer one this fails.", "quantifier": "all histories, all channel schedules without repair overtaking; within the limits of the formats (legal data, fewer than 2^32 of them, identifier lists that fit; at most 65535 legal data always do, see C27)", "why_tests_cant": "All schedules.", "anchors": ["netcode/detail/decoder.cc:add_source_recursive", "netcode/detail/decoder.cc:flush_ordered_sources", "netcode/detail/decoder.cc:drop_outdated", "netcode/detail/decoder.cc:attempt_full_decoding"]}
{"id": "C30", "title": "No undefined behaviour over a lossy FIFO channel", "statement": "If the channel only loses or duplicates-in-place packets (no overtaking at all), no sequence of at most 65535 data that respect the contracts, losses and acks makes the encoder or decoder fail an assertion, dereference a dead iterator or access memory out of bounds, except for a repair asked for while the window is empty (C24). The same holds for fewer than 2^32 data while the identifier lists of all repairs and acks fit the format. Without that condition it fails: with 65537 legal data, of which the first and the last are lost, the receiver reads beyond the end of a genuine repair, in both builds.", "quantifier": "all field sizes (with 32-bit words while the products of sizes and coefficients fit 16 bits, see C75), both builds, all sequences of legal calls with at most 65535 data (or fewer than 2^32 while all identifier lists fit the format), all loss patterns", "why_tests_cant": "All loss patterns and data.", "anchors": ["netcode/detail/decoder.cc:operator()", "netcode/detail/decoder.cc:add_source_recursive", "netcode/detail/decoder.cc:drop_outdated", "netcode/detail/decoder.cc:attempt_full_decoding"]}
{"id": "C31", "title": "Overtaking can make the decoder fail", "statement": "There are schedules of genuine packets, with source packets delayed behind repairs or repairs overtaking each other, for which the decoder uses an invalidated iterator, reads the front of an empty id set, or fails an assertion.", "quantifier": "existential: concrete schedules", "why_tests_cant": "Tests never deliver a late source for a pending repair together with another pending repair.", "anchors": ["netcode/detail/decoder.cc:add_source_recursive", "netcode/detail/decoder.cc:drop_outdated", "netcode/detail/decoder.cc:remove_source_data_from_repair"]}
{"id": "C32", "title": "Malformed repairs can crash the decoder", "statement": "Some packets accepted by the parser make the decoder fail: a repair with an empty id list, and source/repair pairs with inconsistent sizes. The decoder has no protection against them.", "quantifier": "existential: concrete packets", "why_tests_cant": "No test contains a malformed but parseable packet.", "anchors": ["netcode/detail/decoder.cc:operator()", "netcode/detail/decoder.cc:remove_source_data_from_repair", "netcode/detail/packetizer.hh:read_ids"]}
{"id": "C33", "title": "Single loss recovery", "statement": "Whenever a repair arrives that is not already pending and all but one of the sources it covers are held by the receiver, the remaining one (if it is not obsolete) is recovered with its exact original content and, when order is not requested, delivered during that very call.", "quantifier": "all executions of the closed system in which no repair arrives after a newer one, all windows, all data, both build modes; within the limits of the formats (legal data, fewer than 2^32 of them, identifier lists that fit; at most 65535 legal data always do, see C27)", "why_tests_cant": "All windows, positions of the loss and data.", "anchors": ["netcode/detail/decoder.cc:operator()(decoder_repair)", "netcode/detail/decoder.cc:155-195"]}
{"id": "C34", "title": "Multiple loss recovery", "statement": "Whenever the arriving packet (a repair or a late source), together with the repairs the receiver keeps, determines the lost sources uniquely (the linear system over their coefficients has only one solution), all lost sources are recovered with their exact content in that call, for any number of losses.", "quantifier": "all executions of the closed system in which no repair arrives after a newer one, all numbers of losses, all data, both build modes; within the limits of the formats (legal data, fewer than 2^32 of them, identifier lists that fit; at most 65535 legal data always do, see C27)", "why_tests_cant": "All numbers of losses, all coefficient matrices.", "anchors": ["netcode/detail/decoder.cc:attempt_full_decoding", "netcode/detail/invert_matrix.cc:invert"]}
{"id": "C35", "title": "Useless and duplicate packets change nothing", "statement": "A source already held or outdated, and a repair that is already pending or covers only outdated sources, are counted and change nothing else: nothing is delivered, no ack is sent, and known, missing and pending are as before. A repair covering only held sources prunes what is older than its first source, is counted as useless, and recovers nothing; without ordering it delivers nothing. (With ordering it may hand out data that were held back, so 'a useless repair is always silent' is false.)", "quantifier": "all decoder states, all such packets", "why_tests_cant": "All states.", "anchors": ["netcode/detail/decoder.cc:operator()"]}
{"id": "C36", "title": "Immediate delivery", "statement": "A decoder created with in_order::no hands every new, not outdated source to the data handler during the call that received it, with exactly the received bytes, before anything recovered with its help.", "quantifier": "all decoder states, all source packets", "why_tests_cant": "All states and packets.", "anchors": ["netcode/detail/decoder.cc:operator()(decoder_source)", "netcode/detail/decoder.cc:add_source_recursive"]}
{"id": "C37", "title": "In-order mode never withholds a deliverable datum over FIFO", "statement": "Over a lossy FIFO channel with in_order::yes, after every call all known data older than the first unknown one (counted from the oldest not outdated source) have been delivered; data are skipped only when a repair declared them outdated. When a source packet arrives after a repair covering it, this fails: a received and acknowledged datum may never be delivered.", "quantifier": "all executions of the closed system over a lossy FIFO channel, all loss patterns; within the limits of the formats (legal data, fewer than 2^32 of them, identifier lists that fit; at most 65535 legal data always do, see C27)", "why_tests_cant": "All loss patterns; the failing schedule is a single delayed packet.", "anchors": ["netcode/detail/decoder.cc:add_source_recursive", "netcode/detail/decoder.cc:flush_ordered_sources", "netcode/detail/decoder.cc:drop_outdated"]}
{"id": "C38", "title": "Outdated information is dropped", "statement": "After processing a repair (that is neither outdated nor a duplicate), the receiver keeps no source, no missing source and no repair referring to a source older than the oldest one covered by that repair.", "quantifier": "all decoder states, all repairs", "why_tests_cant": "All states.", "anchors": ["netcode/detail/decoder.cc:drop_outdated"]}
{"id": "C39", "title": "Acks tell the truth", "statement": "Every ack lists exactly the sources held by the receiver when it is emitted; each of them was received or recovered with its original content (in the closed system, over a channel on which no repair arrives after a newer one). Its packet counter is the number of source and repair packets seen since the previous ack (modulo 65536).", "quantifier": "all decoder histories; for the contents of the listed sources all executions of the closed system in which no repair arrives after a newer one, within the limits of the formats (see C27)", "why_tests_cant": "All histories.", "anchors": ["netcode/decoder.hh:generate_ack", "netcode/decoder.hh:operator()"]}
{"id": "C40", "title": "Ack schedule", "statement": "After a delivery an ack is emitted if and only if the number of packets since the last ack reached the threshold or the (non-zero) period elapsed; the threshold configured is capped at 128; with period 0 and a threshold not reached no ack is sent automatically.", "quantifier": "all decoder states, all clock readings", "why_tests_cant": "All states and clock readings.", "anchors": ["netcode/decoder.hh:maybe_ack", "netcode/decoder.hh:set_ack_nb_packets", "netcode/decoder.hh:handle_source"]}
{"id": "C41", "title": "Decoder counters", "statement": "nb_received_sources()/nb_received_repairs() count the packets of each type given to the decoder (also malformed ones), nb_sent_acks() the emitted acks (all modulo 2^64). Each call with a packet increases nb_decoded() by the number of sources that the receiver holds after the call, did not hold before and did not receive with that call; if assertions are off, by at least that number, and it can be more: a source can be recovered and counted twice. Without ordering the increase is the number of data delivered, less one if the packet brought a new source.", "quantifier": "all decoder histories (any bytes), both builds, both delivery modes", "why_tests_cant": "All histories.", "anchors": ["netcode/decoder.hh:operator()", "netcode/detail/decoder.cc:155-195", "netcode/detail/decoder.cc:attempt_full_decoding"]}
{"id": "C42", "title": "Lossless channel", "statement": "If every packet of a systematic encoder reaches the decoder in order, then the data delivered are exactly the data sent, in the same order and each immediately, in both delivery modes, and nothing is ever missing or decoded.", "quantifier": "all data sequences, all configurations, all ack interleavings; within the limits of the formats (legal data, fewer than 2^32 of them, identifier lists that fit; at most 65535 legal data always do, see C27)", "why_tests_cant": "All sequences.", "anchors": ["netcode/encoder.hh:operator()", "netcode/decoder.hh:operator()"]}
{"id": "C43", "title": "End-to-end over a lossy FIFO channel", "statement": "For every sequence of data and every pattern of losses, the delivered data form a sub-collection of the sent data without repetition (and an increasing subsequence when order is requested), at the level of the bytes that cross the network, with acks lost, duplicated or reordered arbitrarily. This holds for at most 65535 data, and for fewer than 2^32 data if the identifier lists of all repairs and acks fit the packet format (neighbouring identifiers closer than 65536). Without that condition it is false: a run of 65537 data without any reordering makes the receiver deliver bytes nobody sent.", "quantifier": "all data (at most 65535, or fewer than 2^32 with lists that fit), all loss patterns, all ack schedules, both builds, all fields, both orders; the refutation for both builds, both orders and every clock", "why_tests_cant": "All executions of the closed system.", "anchors": ["netcode/encoder.hh", "netcode/decoder.hh", "netcode/detail/packetizer.hh"]}
{"id": "C44", "title": "An ack never makes the sender forget an unknown datum", "statement": "In any execution of the closed system (C27 channel), when an ack makes the sender drop a source from its window, the receiver holds that datum or has already declared it outdated because of a repair, at that time and ever after; without ordering the datum has been delivered to the receiver's application.", "quantifier": "all executions; within the limits of the formats (legal data, fewer than 2^32 of them, identifier lists that fit; at most 65535 legal data always do, see C27)", "why_tests_cant": "All executions, including reordered and duplicated acks.", "anchors": ["netcode/encoder.hh:notify_impl", "netcode/decoder.hh:generate_ack", "netcode/detail/decoder.cc:drop_outdated"]}
{"id": "C45", "title": "packet behaves as a byte vector", "statement": "Every sequence of operations on a packet (constructors, assign, push_back, resize, clear, indexed writes) does what it would do on a vector of bytes, whatever uninitialised memory contains, unless it writes behind the end; size, empty and indexing agree with the contents; the symbol of every source and repair packet starts at symbol(), 16 bytes into the buffer. A moved-from packet reports size 2^64-9 and loses appended bytes until it is resized, cleared or assigned.", "quantifier": "all packets, all sequences of operations, all contents of uninitialised memory", "why_tests_cant": "All sequences of operations.", "anchors": ["netcode/packet.hh:packet"]}
{"id": "C46", "title": "Packet dumps can be read back", "statement": "Any sequence of packets of at most 65526 bytes written one after the other is read back packet by packet with the same contents, provided std::copy_n leaves an istreambuf_iterator on the last character it copied. With a standard library that leaves it behind that character (libstdc++ since version 10) no single dump is ever read back, and contents come out shifted; and a packet of 65527 bytes is read back as a packet without contents.", "quantifier": "all sequences of packets; all packets for the two refutations", "why_tests_cant": "All sequences; the outcome depends on the standard library the test happens to be compiled with.", "anchors": ["netcode/detail/serialize_packet.hh:write", "netcode/detail/serialize_packet.hh:read"]}
{"id": "C47", "title": "C API error codes", "statement": "Every C entry point that reports errors returns the value of the wrapped call and no error when it succeeds, and otherwise the default value and the documented code of the exception raised (packet type, overflow, no memory, unknown); no exception ever escapes; the message of the error object is left alone by success and by the library's own exceptions.", "quantifier": "all ends of the wrapped call, all error objects, all packets for the two entry points that read packets", "why_tests_cant": "All outcomes.", "anchors": ["netcode/c/detail/check_error.hh:check_error", "netcode/c/decoder.cc:ntc_decoder_add_packet", "netcode/c/encoder.cc:ntc_encoder_add_packet"]}
{"id": "C48", "title": "C API error message ownership", "statement": "Starting from a null message, any sequence of calls on one error object is free of invalid deletes and leaks as long as only exceptions derived from std::exception are raised. Otherwise it is not safe: after a foreign exception the message pointer is left dangling and the next unknown failure deletes it again; an uninitialised error object is deleted as an indeterminate pointer; and the message is never terminated, so that reading it as a C string runs out of the block.", "quantifier": "all sequences of calls with all ends, all allocation failures", "why_tests_cant": "No test provokes two failures on the same error object.", "anchors": ["netcode/c/detail/check_error.hh:check_error"]}
{"id": "C49", "title": "A failed full decoding never loses data", "statement": "When the coefficients of the pending repairs are dependent, the decoder drops one repair and nothing else: known, missing and already delivered data are unaffected, nothing is recovered, and the failure counter increases by one. The same holds for the whole call that received the last repair, up to the pruning of outdated sources that every repair causes.", "quantifier": "all decoder states in which pending repairs refer to missing sources only; all repair packets", "why_tests_cant": "All states with dependent coefficients.", "anchors": ["netcode/detail/decoder.cc:attempt_full_decoding"]}
{"id": "C50", "title": "Identifier wrap-around", "statement": "The n-th datum (from 0) gets the identifier n mod 2^32, so the identifiers restart from 0 after 2^32 data. As long as only packets about sources that are obsolete for the receiver arrive, the receiver delivers nothing, whatever the sender and the receiver do besides; so a datum whose identifier is reused and obsolete is not delivered when its source packet arrives. Hence the claim that over a channel without reordering an arriving datum is delivered is false for runs of more than 2^32 data.", "quantifier": "all builds, clocks, configurations and runs; the witness of the false claim is a run with 2^32+1 data", "why_tests_cant": "Needs 2^32 calls.", "anchors": ["netcode/encoder.hh:commit_impl", "netcode/detail/decoder.cc:operator()(decoder_source)"]}
{"id": "C51", "title": "Acks never influence the delivered data", "statement": "Two receivers in the same decoding state that get the same packets (valid or not) in the same order deliver the same data in the same order, hold the same sources and make the same faults, however their clocks run, whatever their ack period and ack threshold (above zero) are, and whenever generate_ack, maybe_ack and the setters are called in between.", "quantifier": "all builds, fields, both ordering modes, all receiver states, all clocks, all packets (any bytes) and all interleavings of the other calls", "why_tests_cant": "A relation between two runs over all interleavings, clocks and packets; a test compares a few pairs.", "anchors": ["netcode/decoder.hh:operator()", "netcode/decoder.hh:handle_source", "netcode/decoder.hh:maybe_ack", "netcode/decoder.hh:generate_ack"]}
{"id": "C52", "title": "Ordering only delays data", "statement": "Give the same packets (any bytes) to a new receiver with ordering and to a new one without. Either both make the same fault, or both hold the same sources with the same contents, know the same missing sources, keep the same repairs, have the same limit of outdated sources and the same counters; and every datum delivered by the receiver with ordering is also delivered by the one without.", "quantifier": "all builds, fields, clocks, packet sequences (any bytes) and interleaved other calls", "why_tests_cant": "A relation between two runs over all packet sequences, including malformed ones.", "anchors": ["netcode/detail/decoder.cc:add_source_recursive", "netcode/detail/decoder.cc:flush_ordered_sources", "netcode/detail/decoder.cc:drop_outdated"]}
{"id": "C53", "title": "Protocol of the packet handler", "statement": "For each packet the sender calls the packet handler one or more times with a piece and then exactly once without arguments; the first piece is the one byte of the packet type; nothing is called between packets. A handler that concatenates the pieces up to each call without arguments gets exactly the packets, and with assertions on no piece is empty.", "quantifier": "all builds, sender states, sequences of calls (data, packets, repairs, settings) and handlers that do not throw", "why_tests_cant": "The grouping must hold after every call sequence; tests only look at concatenated packets.", "anchors": ["netcode/detail/packetizer.hh:write_source", "netcode/detail/packetizer.hh:write_repair", "netcode/detail/packetizer.hh:mark_end", "netcode/encoder.hh:commit_impl"]}
{"id": "C54", "title": "Exceptions of the packet handler", "statement": "If the packet handler throws during explicit calls of generate_repair only, the sender continues exactly as if it had not thrown: the same later packets and the same state, so only the interrupted repairs are lost. If it throws while a datum is given, the datum stays in the window but its identifier is not consumed: the next datum gets the same one. Hence the claim that a caller may catch such an exception and carry on is false: with both data in the window a later repair makes a receiver deliver bytes that nobody sent.", "quantifier": "all builds, sender states, call sequences and handlers (throwing at any of their calls, depending on all earlier calls); the witness of the false claim is a computed run", "why_tests_cant": "No test has a throwing handler; the moments at which it may throw are unbounded.", "anchors": ["netcode/encoder.hh:commit_impl", "netcode/encoder.hh:generate_repair"]}
{"id": "C55", "title": "Exact adaptive rate", "statement": "When an ack is processed by an adaptive sender that sent s packets since the last processed ack (counted modulo 2^16) and the ack says that r were received, the new rate is 50 if s = 0 or if less than one percent of s is lost (also if r > s), and otherwise s / (2 (s - r)) rounded up, although the code computes in double precision. The only exception is exactly one loss in 98 packets, where rounding errors give 50 instead of 49. A sender that is not adaptive keeps its rate.", "quantifier": "all 2^32 pairs of 16-bit counters; all histories of calls between two acks", "why_tests_cant": "2^32 pairs, rounding errors of doubles; the exception occurs for one ratio only.", "anchors": ["netcode/encoder.hh:rate_for_loss", "netcode/encoder.hh:notify_impl"]}
{"id": "C56", "title": "Settings of a sender", "statement": "After any calls the code type, the window size and the adaptive flag of a sender are the values last set, or the defaults: systematic, 2^64 - 1, not adaptive. The rate is the one last set or 5 as long as the adaptive mode was never switched on. The field size never changes.", "quantifier": "all builds, fields and histories of calls", "why_tests_cant": "All histories, including any received packets.", "anchors": ["netcode/encoder.hh:encoder", "netcode/encoder.hh:set_code_type", "netcode/encoder.hh:set_rate", "netcode/encoder.hh:set_window_size", "netcode/encoder.hh:set_adaptive"]}
{"id": "C57", "title": "Blind spots of the code", "statement": "Let two data have numbers that are equal modulo 15, 255 or 65535 (fields of 4, 8 or 16 bits). If neither arrives as a source packet, and each repair that arrives combines both or none of them (with identifiers so small that the product from which a coefficient is computed fits 32 bits), then neither is ever delivered, whatever the number of repairs. So a burst of 16 (256, 65536) lost data is never recovered completely from repairs that cover it. That as many repairs as there are lost data, or more, are enough is false.", "quantifier": "all builds, data, sequences of calls of sender and receiver, all losses, duplications and reorderings in which no repair arrives after a newer one; within the limits of the formats (legal data, fewer than 2^32 of them, identifier lists that fit; at most 65535 legal data always do, see C27)", "why_tests_cant": "A statement about any number of repairs, and about all schedules.", "anchors": ["netcode/detail/galois_field.hh:coefficient", "netcode/detail/decoder.cc:attempt_full_decoding", "netcode/detail/decoder.cc:operator()"]}
{"id": "C58", "title": "One blind spot stops all recovery", "statement": "While two data with numbers equal modulo 15, 255 or 65535 (fields of 4, 8 or 16 bits) are lost and all repairs that arrive combine both of them, the receiver recovers nothing at all: nb_decoded() stays 0 and each delivered datum had arrived as a source packet, even if the repairs determine other lost data.", "quantifier": "all builds, data, sequences of calls of sender and receiver, all losses, duplications and reorderings in which no repair arrives after a newer one; within the limits of the formats (legal data, fewer than 2^32 of them, identifier lists that fit; at most 65535 legal data always do, see C27)", "why_tests_cant": "A statement about any number of repairs, and about all schedules.", "anchors": ["netcode/detail/galois_field.hh:coefficient", "netcode/detail/decoder.cc:attempt_full_decoding", "netcode/detail/decoder.cc:add_source_recursive"]}
{"id": "C59", "title": "Protocol of the receiver's handlers", "statement": "As long as no handler throws, each call of the receiver calls the data handler once per delivered datum and the packet handler once per piece of an ack followed by one call without arguments; the pieces of an ack come with no other call between them, and the data and acks appear in the order of the decoding, although the handlers run in the middle of the decoding algorithm. State, errors and faults do not depend on the handlers being called during or after the decoding. Handlers that never throw never see the receiver end with an exception of a handler or std::terminate.", "quantifier": "all builds, receiver states, clocks, sequences of calls (packets, acks, settings) and handlers that do not throw in them", "why_tests_cant": "Tests see one interleaving of data and acks; the claim is about every interleaving of recursive recovery, ordered flushing and acks.", "anchors": ["netcode/decoder.hh:handle_source", "netcode/decoder.hh:generate_ack", "netcode/decoder.hh:maybe_ack", "netcode/detail/decoder.cc:add_source_recursive"]}
{"id": "C60", "title": "Exceptions of the data handler", "statement": "If the data handler throws for the datum of a source packet (the first call of a handler for that packet), a receiver without ordering, or one with ordering for which the datum is next in order, has only counted the packet: it is as if lost and may be given again. A whole run of a receiver without ordering in which handlers throw only so, or in calls that send acks, decodes and delivers what the run without these packets does. An exception while an ack is written on request costs nothing either: the next attempt writes exactly the ack that the first would have written and leaves the same state. The claim that every exception may be caught is false: an exception for a recovered datum makes the receiver deliver another datum twice, and one during the recovery of several data makes the next packet fail an assertion, or (without assertions) decode with a matrix that nobody filled.", "quantifier": "all builds, receiver states, clocks, call sequences and handlers (throwing at any of their calls, depending on all earlier calls); the witnesses of the false claims are computed runs", "why_tests_cant": "No test has a throwing handler; the moments at which it may throw are unbounded.", "anchors": ["netcode/detail/decoder.cc:add_source_recursive", "netcode/detail/decoder.cc:attempt_full_decoding", "netcode/decoder.hh:handle_source"]}
{"id": "C61", "title": "Exceptions that end the program", "statement": "An exception of a handler calls std::terminate only in a receiver with ordering that is given a repair packet; in all other calls it reaches the user. The claim that it always reaches the user is false: drop_outdated is noexcept and calls the data handler.", "quantifier": "all builds, receiver states, clocks, calls and handlers; a computed run for the false claim", "why_tests_cant": "No test has a throwing handler.", "anchors": ["netcode/detail/decoder.cc:drop_outdated"]}
{"id": "C62", "title": "Sizes of the emitted packets", "statement": "A source packet has exactly 7 bytes more than its datum. A repair has exactly 11 bytes, twice the longest outstanding datum and its list of identifiers, which is between 6 bytes and 3 more than three bytes per outstanding datum. So with a window of n and data of at most b bytes no packet is longer than 14 + 2b + 3n bytes, and an ack has between 5 bytes and 6 plus three bytes per datum the receiver holds before or after the call. A repair fits a UDP datagram only if all outstanding data have at most 32745 bytes. The claim that every datum that can be sent in a datagram can be repaired is false: for every datum of 32746 to 65500 bytes the source packet fits and no repair does, because a repair carries its symbol twice.", "quantifier": "all builds, fields, call sequences of a sender, histories of a receiver, data and windows; below 2^32 data", "why_tests_cant": "Sizes depend on unbounded histories; no test sends data of more than a few hundred bytes or measures a packet.", "anchors": ["netcode/detail/packetizer.hh:write_repair", "netcode/detail/packetizer.hh:write_source", "netcode/detail/packetizer.hh:write_ack", "netcode/encoder.hh:set_window_size"]}
{"id": "C63", "title": "Bytes behind the end of a packet", "statement": "A packet that the receiver or the sender accepts is treated the same whatever bytes follow it in the buffer: over a whole history of a receiver the data and the acks handed out (with their order and contents), the number of bytes read and all counters are the same, also when stored repairs with such tails are used later; the sender reaches the very same state; dispatch chooses the same component. The converse, that a buffer with a truncated packet in it is refused like the truncated packet alone, is false: a receiver hands out the stale bytes behind the cut as data (examples/accelerator gives its whole buffer to dispatch whatever the length of the datagram).", "quantifier": "all builds, clocks, fields, receiver histories, sender states, packets and tails; for the false claim all data, cuts and stale bytes", "why_tests_cant": "The tests only give exact packets; the tails and the histories are unbounded.", "anchors": ["netcode/detail/packetizer.hh:read_repair", "netcode/detail/packetizer.hh:read_source", "netcode/decoder.hh:operator()", "netcode/dispatch.hh:dispatch", "examples/accelerator/transcoder.hh:start_handler"]}
{"id": "C64", "title": "The accelerator tunnel delivers the data of both applications unchanged and in order while its datagrams fit", "statement": "Take the two programs of examples/accelerator, each with an encoder and a decoder over UDP. If each application sends datagrams of 1 to 65504 bytes, at most 65535 of them, and no packet of an encoder arrives after a newer one, then both programs run until a datagram is longer than 65507 bytes when sent or longer than 65504 bytes when received. Up to that point each application gets data of the other one, unchanged, in order and none twice, whatever old bytes follow a datagram in the receive buffer. With data of at most 32697 bytes, at most 21832 per side, neither program ever ends. If moreover every packet arrives once and in order, all data are delivered. Without these limits programs do end: a datum longer than 32745 bytes among the first five data ends the sender's program, and a first datum of 65498 to 65500 bytes ends the receiver's program. In every run, a program sends no ack before the first datagram of the other program has reached it, and from then on each expiry of its timer sends exactly one ack.", "quantifier": "all build modes, all clock readings, all sequences of datagrams of both applications, timer events, arrivals of packets and acks with any losses and repetitions and any bytes behind them", "why_tests_cant": "Losses, repetitions, timer events and the interleaving of both directions give unboundedly many runs; the limits on the sizes show up only for large datagrams at particular positions.", "anchors": ["examples/accelerator/transcoder.hh:39", "examples/accelerator/transcoder.hh:76", "examples/accelerator/transcoder.hh:110-138", "examples/accelerator/transcoder.hh:143-221", "netcode/dispatch.hh:17-43", "examples/accelerator/transcoder.hh:205-219"]}
{"id": "C65", "title": "A C program can reuse one data and one packet object, if it resizes them before each use", "statement": "A program that uses the C interface with one data object and one packet object, and before each use resizes the object and writes every byte of it, has exactly the effects of the C++ encoder and decoder: the same packets, the same acks, the same data delivered, and undefined behaviour only where the C++ calls have it. After ntc_decoder_add_packet without error, the packet object must not be used except for a resize: its size is reported as 65527 and reading, writing or adding it is undefined behaviour. After a packet type or overflow error the packet object is unchanged, nothing was delivered or sent, and 0 is returned. ntc_encoder_add_packet never changes the packet object. After ntc_encoder_add_data the data object is empty: writing to it is undefined behaviour, adding it again fails an assertion in Debug and sends an empty datum in Release, which the other side delivers. The sizes reported after creating or resizing are those asked for, up to 65535.", "quantifier": "all build modes, clock readings, contents of uninitialised memory, states of the session, sequences of data, packets (also malformed), acks, repairs, generated acks and setters, in any interleaving", "why_tests_cant": "Whether an object may be reused depends on the outcome of the call before (moved away or error), for every packet content; tests try a few sequences with well-formed packets.", "anchors": ["netcode/c/data.cc:8-58", "netcode/c/packet.cc:8-58", "netcode/c/encoder.cc:27-59", "netcode/c/decoder.cc:32-46", "netcode/c/detail/handlers.hh:11-46", "netcode/detail/packetizer.hh:161", "netcode/detail/packetizer.hh:216", "netcode/c/encoder.cc:ntc_encoder_set_rate", "netcode/c/decoder.cc:ntc_decoder_set_ack_nb_packets"]}
{"id": "C66", "title": "A build without assertions does the same as a build with assertions, unless an assertion fails", "statement": "For every call and every sequence of calls of the encoder, of the decoder, and of both connected by a channel, a build with assertions either ends with a failed assertion or has exactly the result of a build without them: same packets, same data, same exceptions, same later behaviour, and the same undefined behaviour if any. So whatever returns in a Debug build returns the same in a Release build. Over a channel that does not let packets overtake, with legal data (at most 65535, or fewer than 2^32 as long as the lists of identifiers fit the format), both builds do the same for the whole run, up to a repair requested while nothing is outstanding. The builds do differ where an assertion fails: a Release build sends and delivers an empty datum. The readers of the packetizer, called directly with a packet of a wrong type, throw with assertions and return a value without. And the assertions do not catch everything: one repair packet that claims a long datum is read beyond its end in both builds.", "quantifier": "all states of the encoder and decoder, all arguments, all sequences of calls, all channels, fields and clock readings", "why_tests_cant": "Tests run one build; that no assertion has a side effect or guards a result for any state and any packet cannot be sampled.", "anchors": ["netcode/encoder.hh:86-96", "netcode/decoder.hh:88-121", "netcode/detail/decoder.cc:34-591", "netcode/detail/packetizer.hh:64-218", "netcode/detail/encoder.cc:18", "netcode/detail/galois_field.hh:100", "netcode/detail/galois_field.hh:137", "CMakeLists.txt:75-78"]}
{"id": "C67", "title": "The receiver keeps what was sent since the newest announced window, and nothing older; without repairs it forgets nothing", "statement": "As long as no repair overtakes another, the data a receiver keeps plus the data it knows to be missing are at most as many as the data sent since the oldest datum of the newest window announced by a repair, and each repair kept waits for missing data only. If no packet overtakes another, fewer repairs are kept than data are missing. Only repairs make a receiver forget: one that gets source packets with different numbers, in any order, and no repair keeps all of them, although they are delivered and acknowledged. So no number bounds the memory of a receiver: for every n below 2^32 - 1 there is a sequence of packets after which n data are kept.", "quantifier": "all runs of the system over a channel on which no repair overtakes another (for the number of repairs: no packet); all sequences of source packets with distinct numbers below 2^32 - 1, both orders of delivery, all clock readings; within the limits of the formats (legal data, fewer than 2^32 of them, identifier lists that fit; at most 65535 legal data always do, see C27)", "why_tests_cant": "A leak of one entry per loss pattern, or a stock that only grows when all repairs are lost, does not fail a test; the bound holds for every loss pattern and any length of the run.", "anchors": ["netcode/detail/decoder.cc:34-50", "netcode/detail/decoder.cc:54-152", "netcode/detail/decoder.cc:341-389", "netcode/decoder.hh:150-190"]}
{"id": "C68", "title": "The lossy proxy loses datagrams as told and changes nothing else", "statement": "In each direction the datagrams the proxy passes on are those its loss model spares, in order, each once and cut at 4096 bytes, and the two counters tell how many came and how many were lost. A reply goes to the latest sender, and ends the program if there was none. With uniform loss of 1 to 99 percent, exactly that many of the 100 values a draw can have lose the datagram; 0 and 100 and more fail the assertion in a build with assertions, and in one without, 0 and more than 100 lose nothing. With bursts, a datagram after a good one is lost with one value more, and after a lost one with one value less, than the percentage says. A loss file loses the k-th datagram exactly if line k exists and does not start with 0. Both directions draw the same sequence, so with equal settings they lose the same positions. A sender and a receiver joined by the proxy, with packets of at most 4096 bytes, form a first-in first-out channel with losses: data are delivered at most once and unchanged, and in order if the receiver orders; a source packet with more than 4089 bytes of data makes the receiver throw.", "quantifier": "all sequences of draws, all loss settings and loss files, all sequences of datagrams in both directions, all programs of sender and receiver calls over all fields (limits of the 32-bit one: C75) with at most 65535 data", "why_tests_cant": "The tool is used to test the library; an off-by-one in its loss rate or a correlation between directions shows only in statistics, and no test states what it must leave unchanged.", "anchors": ["tools/lossy_proxy.cc:32-67", "tools/lossy_proxy.cc:99-126", "tools/lossy_proxy.cc:146-186", "tools/loss/uniform.hh:14-28", "tools/loss/burst.hh:13-55", "tools/loss/stream.hh:15-33"]}
{"id": "C69", "title": "Replaying a dump repeats what the receiver did, up to the first exception and without the last packet", "statement": "The replay tool, given the dump of the packets an 8-bit ordering receiver got, none of which made it throw, ends at the end of the file with the decoding state the receiver had before the last packet, having delivered the same data in the same order; clock, ack settings and requests for acks of the receiver do not matter. If a packet made the receiver throw, the tool ends there with the state before that packet. So not all of a dump is replayed: the last packet never is, nor what follows an exception; an empty dump, and any dump of one packet where std::copy_n stops behind the last character, is read behind its end.", "quantifier": "all sequences of packets of at most 65526 bytes, all sequences of calls of the receiver with legal settings, all clocks of both, both build modes", "why_tests_cant": "There is no test of the tool; a dump that is replayed in part looks like one that is replayed.", "anchors": ["tools/replay.cc:47-101", "netcode/detail/serialize_packet.hh:17-44", "netcode/decoder.hh:96-147"]}
{"id": "C70", "title": "The source forwarder sends the data of the source packets, and memory for those that lie about their size", "statement": "The source forwarder sends the data of the source packets with at most 4089 bytes of data, unchanged, in order and once each, whatever follows in the datagram, and nothing for any other datagram. No datagram makes it read outside its buffer and what it sends has at most 4089 bytes. A source packet with more data ends it. The size of the datagram is ignored: a header of seven bytes that announces n bytes, n at most 4089, makes it send n bytes of uninitialised memory.", "quantifier": "all sequences of datagrams, all contents of uninitialised memory, both build modes", "why_tests_cant": "There is no test of the tool; the contents of uninitialised memory differ from run to run.", "anchors": ["tools/source_forwarder.cc:72-90", "netcode/detail/packetizer.hh:185-218"]}
{"id": "C71", "title": "The one-way accelerator delivers the data unchanged and in order while its datagrams fit into 4096 bytes", "statement": "Take the two programs of examples/accelerator-oneway, the sender with an encoder and the receiver with a decoder over UDP, both with buffers of 4096 bytes. If the application sends datagrams of 1 to 4096 bytes, at most 65535 of them, and no packet arrives after a newer one, then both programs run until a packet or an ack longer than 4096 bytes arrives, or, after more than 21833 data, until the receiver makes an ack longer than 65507 bytes. Up to that point the other application gets data of the first one, unchanged, in order and none twice, whatever happens to the acks and whatever old bytes follow them in the buffer of the sender. With at most 1363 data of at most 1657 bytes neither program ever ends; if moreover every packet arrives once and in order, all data are delivered. The claim is false for any length: when the source packet of a datagram of more than 4089 bytes arrives, the receiver ends with an overflow error, even if it is the first datagram. The receiver sends no ack before the first packet has arrived; from then on each expiry of its timer sends exactly one.", "quantifier": "all build modes, all clock readings, all sequences of datagrams of the application, timer events, arrivals of packets and acks with any losses and repetitions and any bytes behind the acks", "why_tests_cant": "Losses, repetitions, timer events and stale bytes give unboundedly many runs; the limits show up only for large datagrams or many of them.", "anchors": ["examples/accelerator-oneway/sender.cc:104-125", "examples/accelerator-oneway/sender.cc:154-174", "examples/accelerator-oneway/sender.cc:237-239", "examples/accelerator-oneway/receiver.cc:149-188", "examples/accelerator-oneway/receiver.cc:257-264"]}
{"id": "C72", "title": "One loss between two repairs is always made good", "statement": "Take a sender that sends data as they are, with a window of n sources set once before the first datum, and a network that keeps the order of the packets. If of the packets from one repair (exclusive) to the next (inclusive) at most one is lost, be it the repair, and no such group has more than n sources, then once the packets up to a repair have arrived (but for these losses), all data before that repair have been delivered, each once and unchanged, in ordered delivery at the front of the delivered sequence. This holds for any rate, adapted or not, with repairs requested by the user, and whatever becomes of the acks. In particular with a fixed rate of k sources per repair and k at most n, one loss in each of the first g groups of k+1 packets leaves the first k*g data delivered. The claim is false with two losses in one group, and false with one loss when the window is smaller than the group.", "quantifier": "all builds, clocks, all fields (limits of the 32-bit one: C75), both delivery modes, all windows, rates, data, call sequences within the limits, all loss patterns with one loss per group, all fates of the acks", "why_tests_cant": "Loss patterns, group lengths and ack losses give unboundedly many runs; the tests check single recoveries.", "anchors": ["netcode/encoder.hh", "netcode/detail/encoder.cc", "netcode/decoder.hh", "netcode/detail/decoder.cc:attempt_full_decoding", "netcode/detail/decoder.cc:add_repair"]}
{"id": "C73", "title": "An ack leaves exactly the data in the window that the receiver lacked", "statement": "When an ack that the user requested from the receiver arrives at the sender, at any later time, the sender's window loses exactly the data that the receiver held when the ack was written; the rest keeps its order, and it does not matter whether other acks were lost, repeated or overtaken. If the ack arrives at once, what remains is what the receiver lacks, and none of it has been delivered; in particular, if nothing was lost and the sender sends the data as they are, one ack empties the window, even if all earlier acks were lost. The receiver never gives up a datum of the window: if such a datum has been delivered, the receiver still holds it and will list it in its next ack. The claim that an ack leaves no delivered datum in the window is false if packets arrive between its writing and its arrival.", "quantifier": "all builds, clocks, all fields (limits of the 32-bit one: C75), both delivery modes, all call sequences and channel behaviours without overtaking repairs, within the limits", "why_tests_cant": "The states of sender and receiver at the time of the ack, and what happens before it arrives, are unbounded; the tests acknowledge a few sources.", "anchors": ["netcode/decoder.hh:generate_ack", "netcode/encoder.hh:notify_impl", "netcode/detail/source_list.hh:erase", "netcode/detail/decoder.cc:drop_outdated"]}
{"id": "C74", "title": "Reused buffers leave no trace", "statement": "What a sender gives to its packet handler, what a receiver gives to its two handlers, the exceptions and the later behaviour do not depend on what is found in the objects that are used again from call to call (the two buffers of the packetizer, the repair of the sender, the two matrices and the index of the receiver), nor on the contents of memory that is allocated without being initialised. For the sender this holds also after the packet handler threw in the middle of a packet. For the receiver it holds for arbitrary packets with assertions, and without assertions unless a decoding starts with more repairs than missing data; then the outcome can depend on an earlier matrix.", "quantifier": "for all sequences of calls, all packets, all contents of the reused objects at the start of each use and all contents of uninitialised memory", "why_tests_cant": "A test sees one content of the buffers, mostly zeros; leftovers of an interrupted call or of a larger earlier matrix change bytes only for particular sequences.", "anchors": ["netcode/detail/packetizer.hh:m_difference_buffer", "netcode/detail/packetizer.hh:m_rle_buffer", "netcode/encoder.hh:m_repair", "netcode/detail/repair.hh:reset", "netcode/detail/decoder.cc:attempt_full_decoding", "netcode/detail/decoder.cc:155-195", "netcode/detail/square_matrix.hh:resize"]}
{"id": "C75", "title": "With 32-bit words the sizes of recovered data are right only early in a run", "statement": "With the 32-bit field the library keeps 16 bits of the product of a size and a coefficient. As long as no bit is lost, that is for d data shorter than 2^a bytes and r repairs with r * (r + d) < 2^b and a + b <= 17, all guarantees of the closed system hold: what is delivered was sent, once, in order if asked for. Without this condition they do not: if a repair of one datum is the first packet to arrive, the receiver computes a size from the truncated product; it then hands out that many bytes, which agree with the datum as far as it goes, or reads beyond the packet, or asks for a length that is not a multiple of 4. If the first datum is lost and its repair arrives, a datum of L bytes is handed out as its first L mod 32768 bytes, without an error. Legal runs with data of 512 bytes are exhibited in which an empty datum is delivered, in which the receiver reads outside of the packet, and in which the length is not a multiple of 4.", "quantifier": "for all legal runs with the 32-bit field within the stated bound; for all worlds in which nothing has arrived and all repairs of one datum; for all first data; both builds, with and without ordering", "why_tests_cant": "The tests use data of a few bytes and few repairs, for which the products fit; the failure needs the right combination of data size, repair number and source number.", "anchors": ["netcode/detail/galois_field.hh:multiply_size", "netcode/detail/encoder.cc:operator()", "netcode/detail/decoder.cc:155-195", "netcode/detail/decoder.cc:remove_source_data"]}
{"id": "C76", "title": "While the window is never full nothing is given up and ordered delivery has no gaps", "statement": "If each call of set_window_size asks for room for at least as many sources as data are given in the run (a new encoder has room for 2^64-1), and no packet arrives after a newer one, then, whatever is lost and whichever acks arrive, every datum given to the sender is at every time in the window of the sender, held by the receiver, or delivered. With ordering, what the user of the receiver has got is exactly a beginning of what was given to the sender, without gaps, and as long as data are missing, the one that is due is in the window of the sender, so that the next repair includes it. Without ordering, each datum that has not been delivered is in the window. With a smaller window this is false: a run is exhibited in which a datum is in no window, not held and skipped.", "quantifier": "for all runs of the closed system (data, repairs, settings, losses, repetitions in place, arbitrary treatment of acks, both builds, all clocks and fields) within the limits of the wire format; both delivery modes for the first part", "why_tests_cant": "The tests look at a few scripted losses; whether some combination of losses, acks and repairs removes a datum from the window before the receiver has it concerns all runs.", "anchors": ["netcode/detail/source_list.hh", "netcode/encoder.hh:set_window_size", "netcode/encoder.hh:commit", "netcode/encoder.hh:notify", "netcode/detail/decoder.cc:handle_source"]}
{"id": "C77", "title": "The end-to-end tests of the library pass for every loss pattern and every schedule", "statement": "The programs tests/end_to_end.cc and tests/end_to_end_mt.cc never fail: for every pattern of losses of packets and acks, every number of data up to 65535 and every size of data (a multiple of 4 below 65536), no call of the library throws, fails an assertion or has undefined behaviour, and the in-order data handler accepts each datum it gets (right length, the number that is due, the right contents), with every schedule of the two threads of the second program. When data are missing at the end, the first missing one is in the window of the encoder; if nothing is lost, nothing is missing.", "quantifier": "for all loss patterns (functions from the number of the call of loss() to its result), all sizes of data, all numbers of data up to 65535, all clocks, both builds; for all interleavings of the two threads", "why_tests_cant": "These are the tests: each run of them sees one loss pattern of a default-seeded random engine, and one schedule.", "anchors": ["tests/end_to_end.cc", "tests/end_to_end_mt.cc", "netcode/encoder.hh", "netcode/decoder.hh"]}
{"id": "C78", "title": "No iterator or pointer kept by the receiver ever dangles", "statement": "The receiver keeps iterators into its repairs (in each missing source and in the index of a full decoding) and pointers into its sources (for ordered delivery) across calls that insert and erase elements. For any sequence of packets, no such iterator or pointer is ever dereferenced after its element was erased unless the lookup by key at the same place would fail as well; between calls each iterator denotes a living repair that encodes the missing source, each pointer the living source with its identifier; and what is delivered, held and counted is what it would be if all were looked up by identifier. With in-place losses and repetitions only there is no fault at all. One local iterator is an exception by the letter: the loop over the sources of a new repair continues with a reverse iterator that boost's documentation declares invalid after the erasure, as soon as a repair encodes a source that was received and one that was not.", "quantifier": "for all sequences of packets (any bytes), both builds, all fields, both orders; for all worlds of the closed system; for all states and repairs (documented rule)", "why_tests_cant": "A dangling iterator into a std::map usually still reads the old node; a test passes with use after free, and only some combinations of erased repairs, failed decodings and outdated sources could leave one behind.", "anchors": ["netcode/detail/decoder.hh", "netcode/detail/decoder.cc"]}
{"id": "C79", "title": "What a data handler may do with its receiver", "statement": "A data handler may call the receiver that calls it: if it asks for acks (generate_ack, maybe_ack) or changes the ack period or, with a number above zero, the ack threshold, depending in any way on the data it got, then the receiver delivers the same data in the same order, holds the same sources and makes the same faults as one whose handler makes no call. An ack asked for inside the handler of an unordered receiver, for a source that just arrived, lists the sources held before this packet and so not the datum at hand. Giving the receiver a packet from inside the handler is not safe: the packet being handled, given again, is delivered twice (a build with assertions stops), and an ordered receiver then loses the next datum although its packet arrives.", "quantifier": "for all builds, fields, both orders, all receiver states, all clocks, all packets (any bytes), all handlers that only make calls about acks, all interleavings with other calls; the statements about packets given inside the handler by example", "why_tests_cant": "Re-entrancy depends on which members are updated before and after the callback in each of five places; a test exercises one handler on one packet sequence.", "anchors": ["netcode/decoder.hh:handle_source", "netcode/decoder.hh:generate_ack", "netcode/detail/decoder.cc:add_source_recursive", "netcode/detail/decoder.cc:flush_ordered_sources"]}
{"id": "C80", "title": "Exact layout of the packets", "statement": "Each packet that the sender emits consists exactly of these bytes, numbers being written with the most significant byte first. Source: type 2, identifier (4 bytes), size (2), datum; the identifier is the number of data given before, and the datum is the one given. Repair: type 1, its number (4), size of the symbol (2), symbol, the identifiers in the window, the combined sizes (2), then size and symbol a second time; symbol and combined sizes are the combinations of the window with the coefficients of this repair (C17). Ack: type 0, number of packets (2), the identifiers listed. A set of identifiers: two bytes 0 if empty; otherwise one plus the number of runs (2), the first identifier (4), and three bytes per run of equal gaps between neighbours: length (at most 255) and gap (2). Conversely the sender and the receiver accept a packet of bytes exactly if it starts with such a layout (the second copy of a repair's symbol may be absent, the runs may be cut in any way), and get these values and this number of bytes from it.", "quantifier": "for all builds, fields, sequences of calls of the sender and of the receiver (windows and acks whose identifiers span less than 65535, data numbers below 2^32), all packets of bytes for the readers", "why_tests_cant": "A round-trip test passes with any layout that writer and reader share; two programs built from different versions must agree on each byte for all values, window shapes and run lengths.", "anchors": ["netcode/detail/packetizer.hh:write_source", "netcode/detail/packetizer.hh:write_repair", "netcode/detail/packetizer.hh:write_ack", "netcode/detail/packetizer.hh:write_ids", "netcode/detail/packetizer.hh:read_repair"]}
{"id": "C81", "title": "What a packet handler may do with its sender", "statement": "A packet handler may call the sender that calls it: at the end of a packet it may give acks or any other packets and ask for repairs, and at any time change the settings, depending in any way on what it got. The packets are still handed over whole and one after the other, and they and the sender's state are those of a sender that is called from outside only, with the same data in the same order. If its calls lead to no packets, one datum does this: its packet is handed over, the calls of the handler take effect, then rate and window are looked at, and a repair that is now due covers what is left in the window. It only goes wrong if a repair is due or asked for while the window is empty. This happens when the handler passes on acks at once: with the settings of a new sender and each source acked at once, the fifth datum is undefined behaviour. Giving data inside the handler is not safe: two different data are sent under one identifier and the next identifier is skipped. A handler that asks for a repair after each packet never comes to an end.", "quantifier": "for all builds, fields, handlers of this kind (any function of what they got), any depth of nested calls, all sequences of legal calls with fewer than 2^32 data; the undefined fifth datum for all builds and fields, the endless handler for all data; the two data under one identifier by example in each build and field", "why_tests_cant": "Which members the code writes before and after the call of the handler decides the outcome; the empty window is met only if the ack of the last source arrives exactly when a repair is due, so a loop-back test with another rate passes.", "anchors": ["netcode/encoder.hh:commit_impl", "netcode/encoder.hh:generate_repair", "netcode/encoder.hh:operator()(packet)", "netcode/detail/packetizer.hh:write_source"]}
{"id": "C82", "title": "The basic examples deliver each datum, and how long the C one can go on", "statement": "Take the programs of examples/basic, which give each datum to an encoder and the bytes its packet handler collected to a decoder as one packet, and let them go on with any data of 1 to 65535 bytes, fewer than 2^32 of them. In the C++ program, no exception or assertion ever ends it: after each datum the buffer of the data handler holds exactly this datum. Every fifth time a repair lies behind the source in the same packet; the decoder never sees it: it counts all sources and no repair, although the encoder has sent one repair for every five data, and it keeps every datum it ever received. The encoder keeps the last 32 data. In the C program the same holds until a buffer is overrun, which is its only possible end; with at most 325 data of at most 332 bytes none is, whatever the clock. It is overrun when five data of the same content with 333 bytes or more are given (source and repair exceed the packet of 1024 bytes), and by the acks collected in the buffer of 4096 bytes that is never reset, at the latest with the 5236th datum, whatever the data and the clock.", "quantifier": "for all builds, all clocks, all lists of data as described; the two overruns for all data of these sizes and all continuations", "why_tests_cant": "The examples give two data, so they reach neither a repair behind a source nor an ack. The overruns come with the fifth datum or thousands of data later, and depend on lengths and on the clock.", "anchors": ["examples/basic/cpp_basic.cc:55-107", "examples/basic/c_basic.c:13-51", "examples/basic/c_basic.c:110-192", "netcode/decoder.hh:maybe_ack", "netcode/detail/packetizer.hh:read_source"]}
{"id": "C83", "title": "Any bytes but a repair are harmless, and the first source of each identifier counts", "statement": "Give a receiver any non-empty byte strings whatsoever, in any order and number, mixed with calls that send acks and change the acks' settings, as long as none of the strings begins with a complete repair. No call has undefined behaviour or fails an assertion. A string that begins with a complete source (type 2, identifier, size, at least that many bytes) is accepted; every other string is refused with an exception and changes nothing but a counter. Of all the sources with the same identifier the first one counts, whoever made it: without ordering, exactly the first sources are delivered, in their order of arrival; with ordering, exactly the contents of the identifiers 0, 1, ..., n-1 are delivered in this order, where n is the least identifier that has not arrived. The receiver then keeps exactly the identifiers that have arrived. In particular a forged source that arrives before the genuine one is delivered in its stead, and the genuine one never is.", "quantifier": "for all builds, all clocks, both symbol sizes and both delivery modes, all finite sequences of calls whose packets are non-empty byte strings without a complete repair at their beginning", "why_tests_cant": "The inputs are all sequences of all byte strings. Tests feed a few malformed packets to a fresh receiver; they cannot show that no sequence of them leaves a trace, nor find the one length of the sequence that upsets the order of delivery.", "anchors": ["netcode/decoder.hh:operator()(const packet&)", "netcode/detail/decoder.cc:34-70", "netcode/detail/decoder.cc:250-275", "netcode/detail/decoder.cc:571-600", "netcode/detail/packetizer.hh:read_source", "netcode/detail/packet_type.hh"]}
{"id": "C84", "title": "One sender may serve several receivers only if it hears the acks of at most one", "statement": "Give the packets of one encoder to several decoders, each over its own channel with losses and repetitions but without overtaking. A decoder never fails, and hands out only data that were given to the encoder, each at most once and with ordering in their order, if no ack of another decoder reaches the encoder; what the other decoders do makes no difference to it. So without acks all of them are served. With acks this is false: the acks of a second, honest decoder can make the first hand out data that nobody sent, in debug and release builds alike and without any assertion; and they can make it fail an assertion, or in a release build invert a matrix of which a part was never written.", "quantifier": "for all builds, clocks of each receiver, symbol sizes, numbers of receivers with or without ordering, and all finite sequences of legal calls with up to 65535 data, no repair requested from an empty window, and for 32 bit symbols sizes of repairs that fit; the two counterexamples hold for both builds and both delivery modes", "why_tests_cant": "The tests have one receiver per sender. The failing runs need particular losses at one receiver, an ack of the other and repairs before and after it; the positive part is about every interleaving of any number of receivers.", "anchors": ["netcode/encoder.hh:operator()(const packet&)", "netcode/detail/encoder.cc", "netcode/detail/decoder.cc:110-150", "netcode/detail/decoder.cc:277-330", "netcode/detail/decoder.cc:340-420"]}
{"id": "C85", "title": "A receiver must not outlive its sender", "statement": "Give the packets of several encoders to one decoder (a sender that is started again while its peer goes on, or two senders for one port). As long as only sources arrive, no call fails and the decoder hands out, for each identifier, the datum of this identifier that arrived first, whoever sent it: every datum it hands out was given to one of the encoders, but it never hands out more data than the encoder with the most data was given, so after a restart the first data are ignored. With repairs integrity is lost: a restarted sender and a single lost source make the decoder hand out a datum nobody sent, in debug and release builds alike; with data of different sizes an assertion fails, and a release build reads behind the end of a buffer. And an ack for a datum of the old encoder makes the new one forget a datum that never arrived.", "quantifier": "for all builds, clocks, symbol sizes, both delivery modes, any number of senders with fewer than 2^32 data each, and all finite sequences of legal calls and arrivals of sources in any order with losses and repetitions; the three counterexamples hold for both delivery modes, all calls legal and nothing overtaking", "why_tests_cant": "Every test has one encoder per decoder. The failing runs need a second encoder with the same identifiers, the right loss and a repair; the positive part is about every interleaving of any number of senders.", "anchors": ["netcode/decoder.hh", "netcode/encoder.hh", "netcode/detail/decoder.cc:27-80", "netcode/detail/decoder.cc:155-195"]}
{"id": "C86", "title": "How long an ack period may be", "statement": "With ack periods of at most 9223372036854 milliseconds (292 years; also negative ones) the receiver's 64-bit time arithmetic never overflows: every sequence of calls has the effects it would have with unbounded numbers (C40). With a longer period, the first datum delivered before the ack threshold is reached is undefined behaviour (signed overflow). With a negative period an ack follows each datum. Through ntc_decoder_set_ack_period a period of 2^63 or more becomes negative: a C program that asks for one of the 9223372036854 largest values of size_t, in order to get no acks, gets an ack for each datum.", "quantifier": "all builds, fields, both ordering modes, all clocks that show less than 292 years (non-decreasing ones where an ack must follow), all sequences of calls and packets (any bytes)", "why_tests_cant": "The limits lie at values no test uses, and signed overflow need not be visible in a test.", "anchors": ["netcode/decoder.hh:maybe_ack", "netcode/decoder.hh:set_ack_period", "netcode/c/decoder.cc:ntc_decoder_set_ack_period"]}
{"id": "C87", "title": "What an adaptive sender takes for loss", "statement": "In a sender and a receiver joined by any channel, an ack that the adaptive sender accepts sets the rate of C55 for two numbers, each modulo 65536: the packets emitted since it last accepted an ack, and the packets that had arrived between the emission of the ack before this one and that of this one. If it accepts each ack once and in order, their difference is the growth of the number of packets emitted but not arrived when the ack was sent, and the rate is 50 if nothing more is missing than before. If acks are lost, the packets they announced count as lost. So a channel that loses no packet but an ack can bring the rate to 1, and a packet that arrives twice hides a lost one.", "quantifier": "all builds, fields, both ordering modes, all clocks, all runs: any calls of both sides, any loss, duplication and reordering of packets and acks", "why_tests_cant": "The counters of both sides are reset at different times; a test of one channel shows one rate, not what it stands for in every interleaving of packets and acks.", "anchors": ["netcode/encoder.hh:notify_impl", "netcode/decoder.hh:operator()", "netcode/decoder.hh:generate_ack", "netcode/decoder.hh:maybe_ack"]}
{"id": "C88", "title": "Lifetimes and independence of the objects of the C interface", "statement": "A C program keeps any number of encoders, decoders, data, packets and errors in variables. If each call gets objects of the right kind that were made and not deleted, no call follows a dead pointer, and the objects left are those made and not deleted; the first call that does not is undefined behaviour. If the variables fall into groups such that no call names two of them, each group has the results and ends with the objects it would have without the others, and the program fails exactly if one group alone fails. So any number of connections whose calls are interleaved in any way have the effects of their C++ objects (C65), and deleting the objects of a connection leaves none.", "quantifier": "all builds, programs (sequences of calls), assignments of variables to groups, fields, both ordering modes, clocks, contents of uninitialised memory and bytes", "why_tests_cant": "Interleavings of calls and the uses after a deletion are unbounded, and a use after a deletion often goes unnoticed in a test.", "anchors": ["netcode/c/encoder.cc:ntc_delete_encoder", "netcode/c/decoder.cc:ntc_delete_decoder", "netcode/c/data.cc:ntc_delete_data", "netcode/c/packet.cc:ntc_delete_packet", "netcode/c/detail/types.hh"]}
{"id": "C89", "title": "Nothing lost: every datum is delivered by the first packet about it, with any code", "statement": "Over a channel that loses and reorders nothing, a sender that is systematic, not systematic, or switches between the two at any time, and a receiver in either delivery mode: the arrival of the first packet that carries a datum (its source, or a repair covering it) delivers exactly this datum during that call; a packet about earlier data delivers nothing. After the first n packets the data delivered are exactly those these packets are about, in the order sent; nothing is missing or stored, no decoding fails, and nb_decoded() plus the number of source packets is the number of data delivered. After all packets all data are delivered, whatever the window size, rate, acks and repairs on demand. With a code that is not systematic this needs the absence of losses: after one lost packet the following ones may deliver nothing.", "quantifier": "all fields, builds, delivery modes, clocks, action sequences (data, code changes, window and rate changes, repairs on demand, acks that arrive, are lost or repeated), any number of data within the limits of the packet formats", "why_tests_cant": "The tests use a handful of data with fixed windows; here windows, acks, rates and codes interleave arbitrarily, and the claim is about each single call of each such run.", "anchors": ["netcode/encoder.hh:252-285", "netcode/detail/decoder.cc:54-152", "netcode/detail/decoder.cc:248-330"]}
{"id": "C90", "title": "No amplification: a receiver hands over, keeps and acknowledges at most what its packets pay for", "statement": "Whatever bytes a receiver is given, mutilated, repeated, reordered or crafted by an attacker, with any calls and settings in between: after any sequence of calls without undefined behaviour, the data handed to the data handler, the data that wait for their turn and the repairs kept are together at most as many as the source and repair packets given, provided no packet is about source 2^32-1; in any case they are at most twice as many. The sources and repairs kept are together at most as many as the packets. The acks given to the packet handler are at most the data handed over plus the calls of generate_ack and maybe_ack. The proviso is needed: around the identifier 2^32-1, three packets can hand over four data, two of them twice. The bytes are not bounded by the bytes received: two crafted repairs of 22 bytes hand over 370 bytes.", "quantifier": "all packets (any bytes), all sequences of calls and settings, both delivery modes, all fields, builds and clocks", "why_tests_cant": "The tests give honest packets in a few orders. An amplification would need a particular sequence of crafted packets, of unbounded length, and the counting must hold through recursion, flushes and full decodings.", "anchors": ["netcode/detail/decoder.cc:34-152", "netcode/detail/decoder.cc:248-389", "netcode/detail/decoder.cc:412-566", "netcode/decoder.hh:87-122"]}
{"id": "C91", "title": "Repairs that depend on each other stop the recovery of everything they cover", "statement": "Over a channel that loses packets without reordering them (and may repeat one in place): if the repairs a receiver keeps include some that add up to zero with weights that are not all zero, so that one of them says nothing new, then from then on, whatever sources and repairs arrive, none of the data these repairs cover is ever recovered or delivered, and these repairs stay stored, until a repair arrives that covers only newer data. Each full decoding fails, and the newest repair, which could help, is the one given up. In particular two repairs kept for the same unknown data, whose numbers are equal modulo the number of coefficients (15, 255 or 65535 for 4, 8 and 16-bit words), do this. Hence that an additional packet can only help is false: with the same sender and losses, and 4-bit words, repairs 0, 16 and 17 recover three lost data, while repairs 0, 15, 16 and 17 recover none.", "quantifier": "all worlds reached by any calls of sender and receiver over an in-order lossy channel, within the documented limits and 2^32 repairs, all continuations, all sets of dependent stored repairs, all fields, builds, delivery modes and clocks", "why_tests_cant": "It needs at least three losses at once and two repairs 15, 255 or 65535 numbers apart, of which those between are lost; then the effect is the absence of a recovery, for a time that no test can bound.", "anchors": ["netcode/detail/decoder.cc:412-468", "netcode/detail/decoder.cc:67-151", "netcode/detail/galois_field.hh:141-158", "netcode/detail/invert_matrix.cc"]}
{"id": "C92", "title": "The receiver delivers only what its packets determine, and leaves no set of data that they determine", "statement": "Every delivered datum is determined by the packets that arrived: if other data agree with the sent ones on every source that arrived and on the combination in every repair that arrived, they agree on each delivered datum. In the other direction, over a channel that loses packets without reordering them, after every call: no selection of the repairs the receiver keeps determines a non-empty set of missing data that contains all it covers; such a set is recovered in the very call that makes it determined. For a single datum this is false: with 4-bit words, data 0, 1 and 2 lost, repair 0 over the data 0 and 1 and repair 15 over all three determine datum 2 (their difference is a multiple of it), and the receiver, which waits for as many repairs as there are missing data, does not recover it.", "quantifier": "all worlds reached by any calls of sender and receiver within the documented limits, all fields, builds, delivery modes and clocks; for the first part over channels that do not reorder repairs, for the second over in-order lossy channels, all selections of stored repairs and all sets of missing data", "why_tests_cant": "It speaks of all other data that would lead to the same packets, and of all subsets of the stored repairs; a test sees one series of data and can only observe that a recovery happened.", "anchors": ["netcode/detail/decoder.cc:412-560", "netcode/detail/decoder.cc:54-151", "netcode/detail/decoder.cc:249-338", "netcode/detail/galois_field.hh:141-158"]}
{"id": "C93", "title": "Two losses are always made good by one period of repairs, unless their numbers agree modulo the period", "statement": "A receiver behind a lossy channel without reordering lacks exactly the data a and b, and until it has them every repair that arrives covers both and otherwise only data it holds. As soon as two repairs have arrived whose coefficients for a and b are not multiples of each other (r, r' with c(r,a)c(r',b) <> c(r,b)c(r',a)), a and b are recovered, both in the same call, with their exact contents, whatever the other repairs were and in whatever order they were kept or dropped after failed attempts. With words of 4, 8 or 16 bits, a repair whose number is 0 modulo the number of coefficients (15, 255, 65535) and one whose number is one less than a multiple of it always form such a pair unless a and b agree modulo that number; so as many consecutive repairs as there are coefficients always suffice (data that agree are never recovered this way, C57). That two repairs, or three, suffice is false: with 4-bit words the repairs 2, 3 and 4 leave the data 1 and 2 missing.", "quantifier": "all worlds of lossy in-order channels within the documented limits in which exactly two data are missing, all later actions of sender, channel and receiver whose repairs cover both, all fields (for the periods: words of up to 16 bits and numbers whose products fit 32 bits), builds, delivery modes, clocks, and all pairs of numbers", "why_tests_cant": "The number of repairs needed depends on the numbers of the lost data and of the repairs; a test with few numbers sees the usual case in which two repairs suffice and neither the runs of useless repairs nor that they always end within one period.", "anchors": ["netcode/detail/decoder.cc:412-560", "netcode/detail/decoder.cc:249-338", "netcode/detail/galois_field.hh:141-158", "netcode/detail/invert_matrix.cc:8-69"]}
{"id": "C94", "title": "Without acks, a loss holds up ordered delivery only while the window reaches back to it", "statement": "The window size is set to n at the beginning and no ack reaches the sender. Then every repair covers exactly the n newest data of the moment at which it was made (all data if there are fewer), whatever the code, the rate and the further repairs asked for. Behind a lossy channel without reordering, with ordered delivery, a datum x that the receiver holds has been delivered as soon as a repair covering some datum z has arrived and the receiver holds every datum before x that is fewer than n older than z; older losses no longer matter. In particular, when the receiver holds everything that an arrived repair covers, all of it has been delivered, whatever was lost before. With acks this is false: an unacknowledged datum stays in the window beyond n newer ones, and data held behind it stay undelivered even though a repair over a much newer datum has arrived.", "quantifier": "all runs of a sender whose window size is set once and that gets no acks, all lossy in-order channels, all worlds within the documented limits and with at most 2^32 repairs, all repairs that arrived and data they cover, all fields, builds, clocks, codes and rates", "why_tests_cant": "How long delivery stalls depends on the window, on which packets were lost and on when the next repair arrives; a test checks a few loss patterns and window sizes, and the difference that acks make only shows when one datum is lost and the following ones are acknowledged one by one.", "anchors": ["netcode/encoder.hh:253-285", "netcode/encoder.hh:215-224", "netcode/detail/decoder.cc:341-389", "netcode/detail/decoder.cc:54-83"]}
{"id": "C95", "title": "A repair whose data the receiver has is a checkpoint for everything sent before it", "statement": "Behind a lossy channel without reordering, with acks arriving or getting lost in any way, a repair has arrived and the receiver has every datum the repair covers (it holds it, or has given it up as outdated). Then the receiver waits for no datum up to the newest covered one, including those the repair does not mention because they were acknowledged or pushed out of the window: each is held or given up, with ordered delivery each one that is held has been handed to the user, and without ordering each one has been handed over or given up. If the window was never full, the user has got all data up to the newest covered one, and with ordered delivery exactly a beginning of what was sent that contains it. With a window that was full the last claim is false: data pushed out of the window may never be delivered.", "quantifier": "all worlds of lossy in-order channels within the documented limits and with at most 2^32 repairs, all repairs that arrived, all later states, all codes, rates, window sizes, ack schedules and losses of acks, all fields, builds and clocks", "why_tests_cant": "What a repair leaves out is decided by acks that may be lost, late or repeated and by the moments at which the window was full; that none of these histories leaves a datum behind that a later repair no longer mentions is a statement about all of them.", "anchors": ["netcode/encoder.hh:253-285", "netcode/encoder.hh:287-330", "netcode/detail/decoder.cc:54-140", "netcode/detail/decoder.cc:341-389"]}
{"id": "C96", "title": "What a sender does when memory runs out", "statement": "Any allocation of the sender may fail with std::bad_alloc. While none fails the sender is the one of C53 and C54. A call of generate_repair that fails this way either did nothing at all, or left the sender as a success would and handed out a beginning of the repair without its end, so that the repair is lost. A packet on which reading fails this way has no effect, except that an ack may have been counted. A datum whose node could not be stored was not sent; the window has lost its oldest datum if it was full, and every later datum is treated as if the refused one had not been given, so it can be given again. A datum that was stored before a later allocation failed stays in the window under an identifier that the next datum gets too. Hence it is false that a refused datum may always be given again (the repairs then cancel out and a receiver delivers an empty datum that nobody sent), and false that a refused datum has no effect (with a window of one datum generate_repair then violates its assertion).", "quantifier": "all sequences of failing and succeeding allocations, all states of the sender, all data, packets and handlers (throwing or not), all fields, both builds", "why_tests_cant": "Tests do not make single allocations fail; which of the allocations of a call fails, in which state of the window, and what the next calls do afterwards are too many combinations.", "anchors": ["netcode/encoder.hh:253-318", "netcode/encoder.hh:162-169", "netcode/detail/encoder.cc:16-64", "netcode/detail/source_list.hh:24-30", "netcode/detail/packetizer.hh:262-352"]}
{"id": "C97", "title": "What a receiver does when memory runs out", "statement": "Any allocation of the receiver may fail with std::bad_alloc. While none fails the receiver is the one of C59. A call that fails this way has handed to the user a beginning of what it would have handed over. A repair for whose copy or identifiers memory is missing is lost: nothing is handed over and neither the known data nor what will be acknowledged changes; it is counted once, or not at all if its copy failed. Without ordering, a source on which memory runs out either has no effect or had its datum handed over first. An ack for which memory is missing is not ended; its identifiers are kept for the next ack and are all of data that the receiver held or had noted before. It is false that after such a failure the receiver only delivers what was sent (a repair that is linked in part makes a build without assertions deliver bytes nobody sent, and violates an assertion in the other), that it delivers each datum at most once, that with ordering it delivers all it acknowledges, and that a failed allocation is always reported (in the recovery of a datum it ends the program).", "quantifier": "all sequences of failing and succeeding allocations, all states of the receiver, all packets, all readings of the clock, both orders of delivery, all fields, both builds", "why_tests_cant": "Tests do not make single allocations fail; which allocation of a call fails, in which state of the links between repairs and missing data, and what later packets do with the links left behind are too many combinations.", "anchors": ["netcode/decoder.hh:80-122", "netcode/decoder.hh:212-248", "netcode/detail/decoder.cc:33-178", "netcode/detail/decoder.cc:249-337", "netcode/detail/decoder.cc:412-566", "netcode/detail/packetizer.hh:262-352"]}
{"id": "C98", "title": "A receiver with another field than its sender works while nothing is lost, and only then", "statement": "The packets do not tell the Galois field, so nothing stops a user from giving sender and receiver different fields. With source packets and a channel that loses nothing, a receiver with any field delivers the same data, sends the same acks and counts the same as one with the field of the sender; when all packets have arrived all data have been delivered. For any two different fields there are two data whose packets, with the first one lost, make the receiver deliver bytes that nobody sent or end in undefined behaviour, though with equal fields the loss is made good. Without source packets already the first packet does so. It is also false that a loss always shows the mistake: with fields of 8 and 16 bits and small bytes a lost datum is recovered.", "quantifier": "all pairs of fields, all runs over a channel that loses nothing (all data, settings, acks, schedules and readings of the clock), both orders of delivery, both builds; the harm for all pairs of different fields", "why_tests_cant": "The test of a misconfigured pair passes as long as nothing is lost, and with small data even then; only a proof over all runs shows that the field is never used in a run without loss.", "anchors": ["netcode/encoder.hh:48-75", "netcode/decoder.hh:50-75", "netcode/detail/decoder.cc:33-152", "netcode/detail/packetizer.hh:34-120", "netcode/detail/galois_field.hh:34-43"]}
{"id": "C99", "title": "Starting a receiver again is safe only if no ack of the old one arrives", "statement": "A receiver is replaced by a new one while its sender goes on; nothing overtakes, anything may be lost. If no ack of the old receiver arrives at the sender, the new one makes no fault and hands out only data that were sent, each at most once and with ordering in their order. With ordering it hands out nothing as long as it gets neither the very first datum nor a repair, however many data it gets; it holds and so acknowledges all of them. It is false that the new receiver is safe when all acks of the old one have arrived before it starts: one ack, one lost datum and one repair on its way make a build with assertions stop, and one without hand out bytes that nobody sent.", "quantifier": "all fields, both builds, all data, losses, repetitions, acks and schedules of the two receivers with at most 65535 data; for ordered delivery all sequences of calls with packets that are no repairs", "why_tests_cant": "The failure needs an ack of the old receiver between two repairs of which the new one sees both; a test of a restart that misses this timing passes.", "anchors": ["netcode/detail/decoder.cc:54-152", "netcode/detail/decoder.cc:249-337", "netcode/detail/decoder.cc:412-566", "netcode/detail/encoder.cc:16-64", "netcode/decoder.hh:87-122"]}
{"id": "C100", "title": "A packet that arrives again before any later one changes nothing, for the rest of the run", "statement": "Over a channel that loses packets without reordering them: if a packet arrives a second time before any other packet does, whatever sender and user did in between, the second call returns normally, hands out nothing, sends no ack, and leaves what the receiver holds, misses, has given up and stores as it was; also if the repair was given up by a failed decoding the first time. Hence repetitions have no influence on a whole run: a new receiver that gets each packet once, with any clock and any calls about acks, hands out the same data in the same order and ends with the same knowledge. A repetition after a later packet can do harm: with 4-bit words and repairs 0, 15, 16 and 17 three lost data are recovered, with repair 15 once more after repair 16 none is.", "quantifier": "all fields (with 32-bit words while sizes fit, see C75), builds, delivery modes and clocks, all runs of legal calls within the limits of the wire format over a lossy channel without overtaking, all patterns of repetition; the counterexample for both builds", "why_tests_cant": "The repair that was given up is linked, solved for and given up again at each repetition, and in ordered mode old data are flushed again; that this leaves no trace depends on all states of the receiver. The harmful case needs repairs whose numbers differ by the period of the coefficients.", "anchors": ["netcode/detail/decoder.cc:34-50", "netcode/detail/decoder.cc:54-152", "netcode/detail/decoder.cc:341-389", "netcode/detail/decoder.cc:412-566", "netcode/decoder.hh:87-122"]}
