{"id": "C01", "title": "Fifo keeps order and loses nothing", "statement": "A mem.fifo.Fifo of any DEPTH>0 whose writer never asserts dataIn.en while dataIn.wait is high behaves as a queue: the n-th word returned on dataOut.data (in the cycle after an accepted read) is the n-th word accepted on dataIn; never more than DEPTH words are inside; dataIn.wait is high exactly when DEPTH words are inside and dataOut.wait exactly when none is. size/space outputs always equal the number of words inside / DEPTH minus it.", "quantifier": "every DEPTH>0, every data type, every cycle-by-cycle history of dataIn.en/dataIn.data/dataOut.en after reset that respects the writer guard, every initial memory content", "why_tests_cant": "the state space is DEPTH x pointers x contents and the histories are unbounded; wrap-around bugs appear only at particular pointer/flag combinations", "anchors": ["hwtLib/mem/fifo.py: Fifo.fifo_pointers, Fifo.hwImpl"]}
{"id": "C02", "title": "Fifo protected against an impatient writer", "statement": "The queue law of C01 also holds if the writer keeps dataIn.en asserted while dataIn.wait is high (the write is simply ignored).", "quantifier": "every DEPTH and every history without the writer guard", "why_tests_cant": "needs full FIFO with the pointers at the last cell and a simultaneous read: one cycle pattern in an unbounded space", "anchors": ["hwtLib/mem/fifo.py: Fifo.fifo_pointers (looped logic uses write_en, not fifo_write)"]}
{"id": "C03", "title": "INIT_DATA of a Fifo is its initial queue content", "statement": "After reset a Fifo / HandshakedFifo built with INIT_DATA behaves as a queue which initially contains INIT_DATA, for any length of INIT_DATA up to the depth.", "quantifier": "every DEPTH, every INIT_DATA with len(INIT_DATA) <= DEPTH, every history", "why_tests_cant": "the parameter space is unbounded and the failure depends on the boundary len == DEPTH", "anchors": ["hwtLib/mem/fifo.py: Fifo.fifo_pointers (write_ptr/looped def_val)", "hwtLib/handshaked/fifo.py: HandshakedFifo.hwDeclr"]}
{"id": "C04", "title": "HandshakedFifo is a queue on the ready/valid pins", "statement": "For every DEPTH>=2 the words delivered on dataOut are exactly the words accepted on dataIn in order, at most DEPTH are inside, an offered word stays offered unchanged until taken, and dataIn.rd is high whenever fewer than DEPTH-1 words are inside. size and space report the number of words inside and DEPTH minus it.", "quantifier": "every DEPTH>=2, every data type, every history of dataIn.vld/data and dataOut.rd", "why_tests_cant": "unbounded histories and depths; back-pressure schedules cannot be enumerated", "anchors": ["hwtLib/handshaked/fifo.py: HandshakedFifo._connect_fifo_in, _connect_fifo_out, _connect_size_and_space"]}
{"id": "C05", "title": "HandshakedFifo drains", "statement": "After any history, if the consumer keeps dataOut.rd high, every word accepted so far is delivered within DEPTH+1 cycles, whatever the producer does meanwhile.", "quantifier": "every DEPTH>=2, every history and every continuation with rd held high", "why_tests_cant": "liveness over all reachable states", "anchors": ["hwtLib/handshaked/fifo.py: HandshakedFifo._connect_fifo_out"]}
{"id": "C06", "title": "HandshakedReg chain is a queue for every LATENCY/DELAY", "statement": "For DELAY=0 and every LATENCY>=1, for LATENCY=2/DELAY=1 and for LATENCY=(1,2), HandshakedReg without INIT_DATA delivers exactly the accepted words in order, holds at most LATENCY words, keeps an offered word stable and, for DELAY=0 when the consumer is always ready, never stalls the producer and forwards a word exactly LATENCY cycles (1 for LATENCY=(1,2)) after it was accepted.", "quantifier": "every LATENCY, data type and history of vld/data/rd", "why_tests_cant": "histories and chain length are unbounded", "anchors": ["hwtLib/handshaked/reg.py: HandshakedReg._impl_latency, _implLatencyAndDelay, _implReadyChainBreak, hwImpl"]}
{"id": "C07", "title": "HandshakedReg INIT_DATA provides exactly the initial words", "statement": "After reset a HandshakedReg with INIT_DATA delivers the INIT_DATA words and then the accepted words, nothing else.", "quantifier": "every LATENCY and INIT_DATA with len <= LATENCY, every history", "why_tests_cant": "parameter combinations are unbounded and the failing ones are partial initialisations", "anchors": ["hwtLib/handshaked/reg.py: HandshakedReg.hwImpl, _impl_latency"]}
{"id": "C08", "title": "StreamNode transfers all-or-nothing", "statement": "A StreamNode without extraConds/skipWhen performs a transfer on either all of its master and slave channels or on none of them in every cycle, it transfers exactly when all masters are valid and all slaves ready, and never waits on itself: the valid it drives to a slave does not depend on that slave's ready.", "quantifier": "any number of masters and slaves, every combination of vld/rd signals, every skipWhen valuation", "why_tests_cant": "the number of channels is a parameter and every combination of the control signals counts", "anchors": ["hwtLib/handshaked/streamNode.py: StreamNode.sync, ack, ackForMaster, ackForSlave, vld, rd"]}
{"id": "C09", "title": "StreamNode extraConds block every channel", "statement": "The documented contract of extraConds: if the extra condition of one channel is not satisfied, no channel of the node transfers (all-or-nothing with extraConds).", "quantifier": "any number of channels, every valuation of control signals and conditions", "why_tests_cant": "combination space", "anchors": ["hwtLib/handshaked/streamNode.py: StreamNode (doc of extraConds), StreamNode.sync"]}
{"id": "C10", "title": "HsJoinFair delivers one input at a time and is fair", "statement": "HsJoinFairShare with any number of inputs accepts at most one input per cycle, the word on dataOut is the word of the accepted input, a valid input is accepted whenever the output is ready and nobody else is accepted, and an input which keeps vld high while dataOut.rd is high is served within N cycles.", "quantifier": "every number of inputs N>=1, every vld/rd history, every priority state", "why_tests_cant": "N and histories unbounded, starvation cannot be shown by a finite test", "anchors": ["hwtLib/handshaked/joinFair.py: HsJoinFairShare.priorityAck, isSelectedLogic, inputMuxLogic"]}
{"id": "C11", "title": "HsJoinFair output is stable while not accepted", "statement": "A word offered by HsJoinFairShare on dataOut (vld=1, rd=0) stays the same until accepted.", "quantifier": "every history", "why_tests_cant": "depends on the interleaving of the rotating priority with back-pressure", "anchors": ["hwtLib/handshaked/joinFair.py: HsJoinFairShare"]}
{"id": "C12", "title": "HsJoinPrioritized selects the lowest-index valid input", "statement": "HsJoinPrioritized forwards exactly the lowest-index valid input, acknowledges only that input, loses and duplicates nothing.", "quantifier": "any number of inputs, every valuation", "why_tests_cant": "parameter N and all input combinations", "anchors": ["hwtLib/handshaked/joinPrioritized.py: HsJoinPrioritized.inputMuxLogic"]}
{"id": "C13", "title": "HsSplitCopy delivers to all outputs or none", "statement": "In each cycle a word accepted by HsSplitCopy is delivered to every output in that same cycle, and no output receives a word that was not accepted.", "quantifier": "any number of outputs, every valuation of rd/vld", "why_tests_cant": "parameter N and all combinations", "anchors": ["hwtLib/handshaked/splitCopy.py: HsSplitCopy.hwImpl"]}
{"id": "C14", "title": "HsSplitFair sends each word to exactly one output", "statement": "HsSplitFair sends each accepted word to exactly one ready output, a word is accepted whenever at least one output is ready, and an output which is ready during N consecutive cycles with a valid word receives at least one of them.", "quantifier": "any number of outputs N>=1, every valuation/history", "why_tests_cant": "N and priority state unbounded", "anchors": ["hwtLib/handshaked/splitFair.py: HsSplitFair"]}
{"id": "C15", "title": "HsSplitFair selectedOneHot identifies the used output", "statement": "selectedOneHot.data is one-hot and marks the output which received the word.", "quantifier": "every valuation of rd/vld/priority", "why_tests_cant": "the failing valuation needs an unready prioritized output", "anchors": ["hwtLib/handshaked/splitFair.py: HsSplitFair.hwImpl"]}
{"id": "C16", "title": "HsSplitPrioritized / HsSplitSelect route to exactly one output", "statement": "HsSplitPrioritized hands each accepted word to the lowest-index ready output only; HsSplitSelect hands the word to the output named by the one-hot select, consumes word and select together, and transfers nothing if the select names an unready output.", "quantifier": "any number of outputs, every valuation", "why_tests_cant": "parameter N, all combinations", "anchors": ["hwtLib/handshaked/splitPrioritized.py", "hwtLib/handshaked/splitSelect.py"]}
{"id": "C17", "title": "HsResizer loses no data when upscaling", "statement": "HsResizer (up) packs every accepted group of SCALE words, in order, into one output word; no accepted word is lost under any back-pressure.", "quantifier": "every SCALE, every history of vld/data/rd", "why_tests_cant": "the loss needs the last part of a word to arrive in a cycle with dataOut.rd=0", "anchors": ["hwtLib/handshaked/resizer.py: HsResizer.upscale"]}
{"id": "C18", "title": "HsResizer downscale splits each word in order", "statement": "HsResizer (down) delivers the SCALE parts of every accepted word LSB part first, in order, exactly once, under any back-pressure.", "quantifier": "every SCALE, every history", "why_tests_cant": "unbounded schedules", "anchors": ["hwtLib/handshaked/resizer.py: HsResizer.downscale"]}
{"id": "C19", "title": "FifoDrop delivers exactly committed words", "statement": "mem.fifoDrop.FifoDrop delivers exactly the words which were committed, in order; discarded words are never delivered and their space is reclaimed.", "quantifier": "every DEPTH, every history of writes/commit/discard/reads", "why_tests_cant": "transactional histories are unbounded", "anchors": ["hwtLib/mem/fifoDrop.py: FifoDrop.hwImpl"]}
{"id": "C20", "title": "FifoAsync is a queue for every clock interleaving", "statement": "FifoAsync of any power-of-two DEPTH delivers the accepted words in order without loss, duplication or overflow for every interleaving of write-clock and read-clock edges.", "quantifier": "every DEPTH=2^k, every interleaving of two clocks, every en history", "why_tests_cant": "interleavings of two asynchronous clocks cannot be enumerated", "anchors": ["hwtLib/mem/fifoAsync.py: FifoAsync.hwImpl", "hwtLib/clocking/cdc.py: SignalCdcBuilder", "hwtLib/logic/cntrGray.py: binToGray"]}
{"id": "C21", "title": "Gray code changes one bit per increment", "statement": "binToGray maps every w-bit number bijectively and consecutive numbers, including the wrap-around from 2^w-1 to 0, to codes which differ in exactly one bit; CntrGray therefore changes one output bit per enabled cycle.", "quantifier": "every width w>=1, every value", "why_tests_cant": "all widths and values", "anchors": ["hwtLib/logic/cntrGray.py: binToGray, GrayCntr"]}
{"id": "C22", "title": "BinToOneHot and OneHotToBin are inverse", "statement": "BinToOneHot with en=1 sets exactly the bit of the given index (none with en=0); OneHotToBin returns the index of the lowest set bit and vld says whether any bit is set; composing them returns the index.", "quantifier": "every number of bits, every value", "why_tests_cant": "all widths and values", "anchors": ["hwtLib/logic/binToOneHot.py", "hwtLib/logic/oneHotToBin.py"]}
{"id": "C23", "title": "CountLeading counts leading bits", "statement": "CountLeading returns the number of leading zeros (ones) for every power-of-two width >= 2 and every input.", "quantifier": "every width 2^k, every value", "why_tests_cant": "all widths and values", "anchors": ["hwtLib/logic/countLeading.py: CountLeading.count_leading_recurse, CountLeading.hwImpl"]}
{"id": "C24", "title": "BitonicSorter sorts", "statement": "For every power-of-two ITEMS and every total comparison, the outputs of BitonicSorter are a permutation of the inputs in sorted order.", "quantifier": "every ITEMS=2^k, every input vector, every total order", "why_tests_cant": "input space is infinite; testing 0/1 inputs only covers fixed ITEMS", "anchors": ["hwtLib/logic/bitonicSorter.py: BitonicSorter.bitonic_sort, bitonic_merge, bitonic_compare"]}
{"id": "C25", "title": "CRC xor matrix equals polynomial division", "statement": "The XOR matrix computed by CrcComb.buildCrcXorMatrix and applied by applyCrcXorMatrix yields, for every polynomial with constant term 1, every state and every data word, the remainder of state*x^n + data*x^w modulo the polynomial over GF(2) (highest data bit first), and that remainder is the only one.", "quantifier": "every polynomial width, every polynomial with constant term 1, every data width, state and data", "why_tests_cant": "infinite parameter space; XOR matrices are linear in data but tests only sample", "anchors": ["hwtLib/logic/crcComb.py: CrcComb.buildCrcXorMatrix, applyCrcXorMatrix"]}
{"id": "C26", "title": "CrcComb and Crc compute the configured CRC of the message", "statement": "For every configuration (POLY, INIT, REFIN, REFOUT, XOROUT, byte order) CrcComb returns the CRC of its word, Crc without a mask shows the CRC of all accepted words, and Crc with a mask shows after the last word of each frame the CRC of the valid bytes of that frame only, with XOROUT applied bit by bit.", "quantifier": "every configuration (in particular every one of crcPoly.py), every word width, number and content of words and masks, every idle pattern, any number of previous frames", "why_tests_cant": "message length and the configuration space are unbounded", "anchors": ["hwtLib/logic/crc.py: Crc.hwImpl", "hwtLib/logic/crcComb.py: CrcComb.hwImpl", "hwtLib/logic/crcPoly.py"]}
{"id": "C27", "title": "BinToBcd produces the decimal digits", "statement": "BinToBcd returns, for every input value and width, BCD digits each <= 9 whose decimal value is the input, a fixed number of cycles after acceptance, and each accepted input gives exactly one output.", "quantifier": "every width, every value, every handshake history", "why_tests_cant": "2^width values and unbounded histories", "anchors": ["hwtLib/logic/binToBcd.py: BinToBcd.hwImpl"]}
{"id": "C28", "title": "BcdToBin returns the decimal value", "statement": "BcdToBin returns for each accepted vector of digits (each <= 9) its decimal value, one output per accepted input.", "quantifier": "every digit count, all digits, every handshake history", "why_tests_cant": "10^n values, unbounded histories", "anchors": ["hwtLib/logic/bcdToBin.py: BcdToBin.hwImpl"]}
{"id": "C29", "title": "LFSR never locks up", "statement": "The LFSR with the top tap set never reaches the all-zero state from a non-zero seed and its state transition is invertible, so its output is purely periodic.", "quantifier": "every width, every tap set containing the top bit, every nonzero seed, any number of steps", "why_tests_cant": "period up to 2^w-1", "anchors": ["hwtLib/logic/lfsr.py: Lfsr.hwImpl"]}
{"id": "C30", "title": "RamAsAddrDataRdVld returns one word per address in order", "statement": "Every address accepted on r.addr yields exactly one word on r.data, in order, equal to the RAM content at acceptance, under any back-pressure; writes accepted on w are performed exactly once and never in a cycle in which a read is issued.", "quantifier": "every history of addr/data handshakes, every memory content", "why_tests_cant": "the overflow register handles a one-cycle race with the RAM latency", "anchors": ["hwtLib/handshaked/ramAsAddrDataRdVld.py: RamAsAddrDataRdVld.read_logic, hwImpl"]}
{"id": "C31", "title": "HandshakedCdc transfers each word exactly once", "statement": "Words delivered on dataOut of HandshakedCdc are exactly the words accepted on dataIn, in order, for every interleaving of clocks and any back-pressure.", "quantifier": "every interleaving of the two clocks, every handshake history", "why_tests_cant": "clock interleavings and back-pressure schedules are unbounded", "anchors": ["hwtLib/handshaked/cdc.py: HandshakedCdc.hwImpl, HandshakeFSM", "hwtLib/clocking/cdc.py: CdcPulseGen"]}
{"id": "C32", "title": "CAM reports exactly the matching entries", "statement": "After any history of writes, a Cam lookup returns the one-hot set of entries whose last write was valid and carried the looked-up key; lookups do not change the content.", "quantifier": "every number of items, every history of writes/matches", "why_tests_cant": "histories are unbounded", "anchors": ["hwtLib/mem/cam.py: Cam.hwImpl, writeHandler, matchHandler"]}
{"id": "C33", "title": "RAM read returns the last write under byte enables", "statement": "A RamSingleClock read returns, byte by byte, the last value written with that byte enabled to the address, with read-during-write returning the old content, and other addresses untouched.", "quantifier": "every size, history, byte enable pattern", "why_tests_cant": "unbounded histories", "anchors": ["hwtLib/mem/ram.py: RamSingleClock.connectPort, connectPorts"]}
{"id": "C34", "title": "XOR multi-port RAM read returns the last write", "statement": "A read port of RamXorSingleClock returns the last value written by any write port to the address.", "quantifier": "every number of ports, every history of port operations", "why_tests_cant": "needs particular alignment of writes and reads between ports", "anchors": ["hwtLib/mem/ramXor.py: RamXorSingleClock"]}
{"id": "C35", "title": "Bus interconnect address allocation is aligned and disjoint", "statement": "The slave regions resulting from SLAVES configuration (with explicit and AUTO_ADDR addresses) are aligned to their size, pairwise disjoint, keep the explicit addresses, and every configuration with overlapping or misaligned explicit regions is rejected.", "quantifier": "every list of slave specifications", "why_tests_cant": "configuration space is infinite", "anchors": ["hwtLib/abstract/busInterconnect.py: BusInterconnectUtils._normalize_slave_configs, _assert_non_overlapping"]}
{"id": "C36", "title": "Address width covers all slaves", "statement": "getOptimalAddrSize returns an address width sufficient to address every slave region.", "quantifier": "every accepted SLAVES configuration", "why_tests_cant": "depends on declaration order of slaves", "anchors": ["hwtLib/abstract/busInterconnect.py: BusInterconnect.getOptimalAddrSize"]}
{"id": "C37", "title": "Separable groups partition the interconnect graph", "statement": "_extract_separable_groups returns the connected components of the master/slave graph: every master is in exactly one group, every slave reachable from a master is in that master's group, two groups share neither master nor slave.", "quantifier": "every connection matrix", "why_tests_cant": "graphs are unbounded", "anchors": ["hwtLib/abstract/busInterconnect.py: BusInterconnectUtils._extract_separable_group, _extract_separable_groups"]}
{"id": "C38", "title": "BusStaticRemap address translation in hardware equals the specification", "statement": "The address produced by translate_addr_signal equals translate_addr_val for every address and memory map accepted by _normalize_mem_map.", "quantifier": "every memory map, every address", "why_tests_cant": "infinite parameter space, the failing case is aligned to aligned remap", "anchors": ["hwtLib/abstract/busStaticRemap.py: BusStaticRemap.translate_addr_signal, translate_addr_val"]}
{"id": "C39", "title": "AddressStepTranslation keeps the addressed bits", "statement": "For any power-of-two address steps the translated address points to the same bit offset (aligned down to the destination unit) plus the offset.", "quantifier": "every pair of power-of-two steps, every address", "why_tests_cant": "infinite parameter space", "anchors": ["hwtLib/abstract/addressStepTranslation.py: AddressStepTranslation"]}
{"id": "C40", "title": "SimRam allocations never overlap", "statement": "Memory regions returned by SimRam.malloc/calloc are pairwise disjoint; reading them back with getBits/getArray returns what was stored there.", "quantifier": "every history of allocations, every cell size", "why_tests_cant": "allocation histories are unbounded; partial-cell sizes", "anchors": ["hwtLib/abstract/sim_ram.py: SimRam.malloc, calloc, getArray, getBits, reshapedInitItems"]}
{"id": "C41", "title": "Shared timers tick with their own period", "statement": "ClkBuilder.timers(periods) returns for each requested period a tick that is high exactly in every period-th enabled cycle, regardless of how the counters are shared.", "quantifier": "every list of periods >= 1, every enable history", "why_tests_cant": "sharing topology depends on divisibility of all requested periods", "anchors": ["hwtLib/clocking/timers.py: TimerInfo.resolveSharing, _instantiateTimer, _instantiateTimerWithParent, _instantiateTimerTickLogic", "hwtLib/clocking/clkBuilder.py: ClkBuilder.timers"]}
{"id": "C42", "title": "Dynamic timer ticks with the requested period", "statement": "ClkBuilder.timerDynamic ticks once every period cycles (every period enabled cycles when enable is used).", "quantifier": "every period, every history", "why_tests_cant": "histories unbounded", "anchors": ["hwtLib/clocking/timers.py: DynamicTimerInfo._instantiateTimerTickLogic", "hwtLib/clocking/clkBuilder.py: ClkBuilder.timerDynamic"]}
{"id": "C43", "title": "DataRdVldToAxi4Stream keeps data and frame sizes", "statement": "The data words on dataOut are exactly the accepted input words in order; with MAX_FRAME_WORDS alone each frame has exactly that many words, together with IN_TIMEOUT at most that many; with IN_TIMEOUT a waiting word leaves as the last of its frame once there was no input for IN_TIMEOUT cycles, and not sooner.", "quantifier": "every MAX_FRAME_WORDS, every IN_TIMEOUT, every history", "why_tests_cant": "unbounded histories", "anchors": ["hwtLib/handshaked/dataRdVldToAxi4Stream.py: DataRdVldToAxi4Stream.hwImpl"]}
{"id": "C44", "title": "Frame alignment utilities preserve bytes", "statement": "create_frame emits exactly byte_cnt bytes in order with the right source coordinates; join_streams concatenates the bytes of all frames in order after the requested offset into words of word_bytes bytes, padding only at the end.", "quantifier": "every word size, byte counts, offsets, number of streams", "why_tests_cant": "infinite parameter space", "anchors": ["hwtLib/abstract/frame_utils/alignment_utils.py: FrameAlignmentUtils.create_frame, join_streams"]}
{"id": "C45", "title": "HsJoinFair does not starve an input under a slow consumer", "statement": "An input of HsJoinFairShare which keeps offering a word is served after finitely many transfers on dataOut, whatever the pattern of dataOut.rd.", "quantifier": "every number of inputs, every ready pattern with infinitely many ready cycles", "why_tests_cant": "starvation is a property of infinite schedules", "anchors": ["hwtLib/handshaked/joinFair.py: HsJoinFairShare.isSelectedLogic"]}
{"id": "C46", "title": "Oversampling delivers the majority of the samples", "statement": "ClkBuilder.oversample asserts its valid tick on each sampleCount-th sample and the value then says whether at least half of the sampleCount samples (the current one included) were high.", "quantifier": "every sampleCount >= 2, every history of samples and sample ticks", "why_tests_cant": "histories unbounded; majority over all windows", "anchors": ["hwtLib/clocking/clkBuilder.py: ClkBuilder.oversample"]}
{"id": "C47", "title": "Edge detector and register path reproduce the history", "statement": "ClkBuilder.edgeDetector signals a rising/falling edge exactly in the cycles where the signal differs from its value in the previous cycle; ClkBuilder.reg_path(n) outputs the input of n cycles ago.", "quantifier": "every history, every number of registers, every initial value", "why_tests_cant": "histories unbounded", "anchors": ["hwtLib/clocking/clkBuilder.py: ClkBuilder.edgeDetector, reg_path"]}
{"id": "C48", "title": "Start offsets of a following frame are complete", "statement": "next_frame_offsets terminates and returns exactly the bit offsets in a word at which a stream of some length in len_min..len_max (also unlimited) can end.", "quantifier": "every element width, word width and length range, including unlimited", "why_tests_cant": "the range of lengths may be infinite, the code stops at the first repeated offset", "anchors": ["hwtLib/abstract/frame_utils/alignment_utils.py: next_frame_offsets"]}
{"id": "C49", "title": "FifoCopy replays the stored frame", "statement": "FifoCopy and the AXI-stream copy FIFO output the accepted words in order; after a request for a copy the words of the last frame are output again, completely and unchanged, before the next frame; the register variant repeats the stored word while copying is requested; a frame shorter than DEPTH words passes.", "quantifier": "every DEPTH, every history of writes, reads and copy requests", "why_tests_cant": "replay interleaves with unbounded write/read histories", "anchors": ["hwtLib/mem/fifoCopy.py: FifoCopy", "hwtLib/amba/axis_comp/fifoCopy.py: Axi4SFifoCopy, Axi4SRegCopy"]}
{"id": "C50", "title": "FifoArray keeps its linked lists", "statement": "FifoArray holds a set of lists: an insert stores its item in a free node and returns the address, either as a new list (append=0, addr ignored) or at the end of the list ending at addr; a pop at the head of a list gives its data, whether it was the last node and the address of the following one; insert is ready iff a node is free, pop valid iff any node is used.", "quantifier": "every number of items 2^k, every history of simultaneous inserts and pops, every initial content of the memories", "why_tests_cant": "unbounded histories and all shapes of the lists", "anchors": ["hwtLib/mem/fifoArray.py: FifoArray.hwImpl"]}
{"id": "C51", "title": "Axi4S_resizer keeps frames", "statement": "Changing the width of an AXI stream keeps the sequence of valid bytes and the ends of the frames with their side signals; going up each wide word packs as many narrow words as fit and a frame starts in a new word, going down a wide word becomes its parts without those after its last valid byte; nothing is withheld.", "quantifier": "every ratio, every word size, every content and strobe, every schedule of valid and ready", "why_tests_cant": "interleaving of stalls and frame ends over unbounded histories", "anchors": ["hwtLib/amba/axis_comp/resizer.py: Axi4S_resizer.upscale, downscale, nextAreNotValidLogic"]}
{"id": "C52", "title": "Axi4S_en switches between frames only", "statement": "With en low no new frame is started, but a frame which has started is finished; words pass unchanged.", "quantifier": "every history of en, valid, ready and frame lengths", "why_tests_cant": "needs all interleavings of en with frames", "anchors": ["hwtLib/amba/axis_comp/en.py: Axi4S_en.hwImpl"]}
{"id": "C53", "title": "Axi4SJoinPrioritized does not interleave frames", "statement": "Once a word of a frame has passed, only words of the same input pass until the last word of the frame; between frames the lowest input with a word is taken; the words pass unchanged.", "quantifier": "every number of inputs, every history", "why_tests_cant": "all interleavings of n producers", "anchors": ["hwtLib/amba/axis_comp/joinPrioritized.py: Axi4SJoinPrioritized.hwImpl"]}
{"id": "C54", "title": "Stored bursts send their data", "statement": "HandshakedStoredBurst and Axi4SStoredBurst send the stored words in order, each once, marking the last one; with REPEAT again and again; data given as bytes are sent as these bytes.", "quantifier": "every data, every schedule of ready", "why_tests_cant": "unbounded histories of ready and arbitrary data", "anchors": ["hwtLib/handshaked/storedBurst.py: HandshakedStoredBurst", "hwtLib/amba/axis_comp/storedBurst.py: Axi4SStoredBurst"]}
{"id": "C55", "title": "UartTx puts each byte on the line", "statement": "A byte taken by UartTx appears on txd as a start bit, eight data bits with the least significant first and a stop bit, each for exactly FREQ//BAUD cycles; txd is 0 nowhere else; the component refuses data exactly during the ten bit times after it took a byte.", "quantifier": "every bit rate, every history of offered bytes", "why_tests_cant": "needs all bytes, all bit rates and all distances between bytes", "anchors": ["hwtLib/peripheral/uart/tx.py: UartTx.hwImpl", "hwtLib/clocking/clkBuilder.py: ClkBuilder.timers"]}
{"id": "C56", "title": "UartRx gives the bytes on the line", "statement": "On any line made of bytes with gaps of any length, whose waveforms start on time and are right in the second half of the samples of each bit, UartRx gives exactly these bytes.", "quantifier": "every oversampling, every divider, every sequence of bytes, gaps and inaccuracies", "why_tests_cant": "needs all waveforms", "anchors": ["hwtLib/peripheral/uart/rx.py: UartRx.hwImpl", "hwtLib/clocking/clkBuilder.py: ClkBuilder.oversample"]}
{"id": "C57", "title": "UartTx and UartRx of the same parameters understand each other", "statement": "With txd connected to rxd and the same FREQ and BAUD, each byte taken by UartTx is given by UartRx, in order and nothing else, for all parameters which the components accept.", "quantifier": "every FREQ/BAUD, OVERSAMPLING and history of offered bytes", "why_tests_cant": "the divider rounding matters only for some parameters and late bits", "anchors": ["hwtLib/peripheral/uart/tx.py: UartTx", "hwtLib/peripheral/uart/rx.py: UartRx (rx.py:45 assertion)"]}
{"id": "C58", "title": "ReorderBuffer restores the sequence", "statement": "Words which come with identifiers out of order leave ReorderBuffer in the order of the sequence numbered by the identifiers modulo their count, each once and with its data, whatever the order of arrival and the back-pressure; an offered word stays offered; if the next word of the sequence is there and the consumer is ready, it comes within four cycles.", "quantifier": "every identifier width, every order of arrival, every schedule of valid and ready", "why_tests_cant": "needs all orders of arrival and all schedules", "anchors": ["hwtLib/amba/axi_comp/oooOp/reorder_buffer.py: ReorderBuffer.hwImpl"]}
{"id": "C59", "title": "MultiplierBooth multiplies", "statement": "For all operands in the documented range -2^(n-1) .. 2^(n-1)-1 the results given by MultiplierBooth are the signed products of the accepted operands, in order, each once; a result is offered n cycles after its operands were accepted and stays offered until taken.", "quantifier": "every width, every history of operands, every back-pressure", "why_tests_cant": "needs all operands of all widths", "anchors": ["hwtLib/examples/arithmetic/multiplierBooth.py: MultiplierBooth.hwImpl"]}
{"id": "C60", "title": "Ripple-carry adders add", "statement": "The sum with the carry out of RippleAdder0-3 is the sum of both operands and the carry in.", "quantifier": "every word length and all operands", "why_tests_cant": "exponentially many operands", "anchors": ["hwtLib/examples/hierarchy/rippleadder.py: FullAdder, RippleAdder0, RippleAdder1, RippleAdder2, RippleAdder3"]}
{"id": "C61", "title": "PidController computes the documented equation", "statement": "The output of PidController is u(k) = u(k-1) + a0*e(k) + a1*y(k) + a2*y(k-1) + a3*y(k-2) modulo the width, where y are the inputs and e(k) = target - input.", "quantifier": "every width, every history of inputs, targets and coefficients", "why_tests_cant": "unbounded histories", "anchors": ["hwtLib/logic/pid.py: PidController.hwImpl"]}
{"id": "C62", "title": "PseudoLru does not replace what was just used", "statement": "After mark_use_many of an item, get_lru gives another item; get_lru and mark_use_many follow the table in the documentation; every number of ways which is a power of two is supported.", "quantifier": "every state of the tree, every item, every sequence of uses", "why_tests_cant": "all states and sequences of uses; the repository only tests the width functions", "anchors": ["hwtLib/amba/axi_comp/cache/pseudo_lru.py: PseudoLru.mark_use_many, PseudoLru.get_lru, PseudoLru.node_selected_mask"]}
{"id": "C63", "title": "FifoOutOfOrderRead reuses a slot only after its item was confirmed", "statement": "Items are offered for reading in the order of the writes, with the slot of the item; items being read may be confirmed in any order; a write is accepted exactly if the slot of the new item is not occupied by an item not read yet or not confirmed; item_valid marks the occupied slots; item_write_lock marks the items being read and the next item to be read, unless it was written in the last cycle.", "quantifier": "every number of items, every schedule of writes, reads and confirmations of items being read", "why_tests_cant": "needs all orders of confirmations and all schedules", "anchors": ["hwtLib/amba/axi_comp/lsu/fifo_oooread.py: FifoOutOfOrderRead.hwImpl", "hwtLib/mem/fifo.py: Fifo.fifo_pointers"]}
{"id": "C64", "title": "VldSyncedCdc delivers the words", "statement": "If the destination clock is not slower, the consumer of VldSyncedCdc sees the words which were sent, in order, each once.", "quantifier": "every interleaving of the edges of the clocks, every history of words", "why_tests_cant": "needs all interleavings of the clocks and all data", "anchors": ["hwtLib/clocking/vldSynced_cdc.py: VldSyncedCdc.hwImpl", "hwtLib/clocking/cdc.py: SignalCdcBuilder"]}
{"id": "C65", "title": "Axi4SlaveTimeout gives each request exactly one response", "statement": "If the slave does not answer a request for TIMEOUT cycles, the master gets one error response with the id of the request; otherwise it gets the responses of the slave and nothing else; a response offered to the master is kept until it is taken.", "quantifier": "every TIMEOUT, every schedule of requests, responses and ready", "why_tests_cant": "needs all latencies of the slave and all stalls of the master", "anchors": ["hwtLib/amba/axi_comp/slave_timeout.py: Axi4SlaveTimeout.hwImpl"]}
{"id": "C66", "title": "Axi_to_AxiLite splits bursts and joins responses", "statement": "Each burst accepted by Axi_to_AxiLite is handed to the AxiLite slave as its beats in order, with addresses growing by the size of a word; the responses of the slave are given back in order, with the id of their burst and last on the last beat; writes get one response per burst, that of the last beat. While responses are outstanding the slave is served after at most two cycles.", "quantifier": "every address, id, length, word size, number of overlapping transactions and every schedule of all handshakes", "why_tests_cant": "needs all schedules of four handshakes and all lengths of bursts", "anchors": ["hwtLib/amba/axi_comp/to_axiLite.py: Axi_to_AxiLite.gen_addr_logic, Axi_to_AxiLite.gen_b_or_r_logic", "hwtLib/handshaked/fifo.py: HandshakedFifo", "hwtLib/handshaked/streamNode.py: StreamNode.sync"]}
{"id": "C67", "title": "Mi32_to_Axi4Lite passes each access once", "statement": "Each MI32 access accepted by Mi32_to_Axi4Lite is one request on the AxiLite address channel with its address; the data of the writes goes to the w channel in order; read data is passed back.", "quantifier": "every history of accesses, every schedule of the ready signals of the three channels", "why_tests_cant": "needs all interleavings of stalls of the independent channels", "anchors": ["hwtLib/cesnet/mi32/to_axi4Lite.py: Mi32_to_Axi4Lite.hwImpl"]}
{"id": "C68", "title": "Axi4Lite_to_Mi32 passes each transaction once", "statement": "Each read or write accepted by Axi4Lite_to_Mi32 is one MI32 access with its address and data, in order, and gets one response.", "quantifier": "every history of transactions, every schedule of the five channels and of the MI32 slave, both priorities", "why_tests_cant": "needs all interleavings of five channels", "anchors": ["hwtLib/cesnet/mi32/axi4Lite_to_mi32.py: Axi4Lite_to_Mi32.hwImpl"]}
{"id": "C69", "title": "Mi32SlidingWindow and Mi32Buff preserve accesses", "statement": "An access through Mi32SlidingWindow goes to its address plus the last offset written to the offset register; writes of the offset register are accepted at once and are not passed. Mi32Buff passes the requests unchanged, in order, keeps an offered request until it is taken, and delays read data by exactly DATA_BUFF_DEPTH cycles.", "quantifier": "every history of accesses and stalls, every window size, address width and depth of the data buffer", "why_tests_cant": "needs all histories of accesses", "anchors": ["hwtLib/cesnet/mi32/sliding_window.py: Mi32SlidingWindow.hwImpl", "hwtLib/cesnet/mi32/buff.py: Mi32Buff.hwImpl"]}
{"id": "C70", "title": "Mi32InterconnectMatrix routes accesses and read data", "statement": "Each access reaches exactly the slave of its address, in the cycle in which it is taken from the master; the master gets one word for each accepted read, the one which the slave gave, in the order of the reads.", "quantifier": "every configuration of slaves, every history of accesses, stalls and latencies of the slaves", "why_tests_cant": "needs all latencies and interleavings of several slaves", "anchors": ["hwtLib/cesnet/mi32/interconnectMatrix.py: Mi32InterconnectMatrix.hwImpl", "hwtLib/handshaked/fifo.py: HandshakedFifo"]}
{"id": "C71", "title": "RStrictOrderInterconnect returns read data to the driver which asked", "statement": "The requests of N drivers are passed to the datapump one by one in the order in which they are taken from the drivers. Every read frame is given as a whole, unchanged and in order, to the driver whose request it answers; no driver gets a word which is not its own, no word is lost or given twice, transactions may overlap up to MAX_TRANS_OVERLAP.", "quantifier": "every number of drivers and depth, every history of requests, frames and stalls", "why_tests_cant": "needs all interleavings of requests of several drivers with the answers", "anchors": ["hwtLib/amba/datapump/interconnect/rStricOrder.py: RStrictOrderInterconnect.hwImpl", "hwtLib/amba/axi_comp/interconnect/base.py: AxiInterconnectBase.reqHandler", "hwtLib/handshaked/joinFair.py: HsJoinFairShare", "hwtLib/handshaked/fifo.py: HandshakedFifo"]}
{"id": "C72", "title": "WStrictOrderInterconnect keeps write frames and acknowledges with their driver", "statement": "The write frames reach the datapump in the order of the requests and are never mixed; each acknowledge of the datapump is given to the driver whose frame it confirms and never before the last word of that frame was passed.", "quantifier": "every number of drivers and depth, every history of requests, data, acknowledges and stalls", "why_tests_cant": "needs all interleavings of requests, data and acknowledges of several drivers", "anchors": ["hwtLib/amba/datapump/interconnect/wStrictOrder.py: WStrictOrderInterconnect.wHandler, ackHandler, hwImpl", "hwtLib/amba/axi_comp/interconnect/base.py: AxiInterconnectBase.reqHandler", "hwtLib/handshaked/fifo.py: HandshakedFifo"]}
{"id": "C73", "title": "Datapump bursts cover exactly the requested words", "statement": "For each request (addr, len, rem) taken from the driver a datapump issues consecutive INCR bursts whose beats address exactly the bus words which contain the requested bytes, each word once and in ascending order, and no burst is longer than the bus allows. The request is taken in the cycle of its last burst.", "quantifier": "every configuration of widths, alignment and maximal length, every history of requests and stalls", "why_tests_cant": "the address, the length and the stalls are unbounded combinations; splitting needs all lengths", "anchors": ["hwtLib/amba/datapump/base.py: AxiDatapumpBase.addrHandler, useTransSplitting, isCrossingWordBoundary, hasAlignmentError", "hwtLib/amba/datapump/intf.py: AddrSizeHs"]}
{"id": "C74", "title": "Axi_rDatapump returns one frame for each request", "statement": "If the bus answers the bursts in order, the driver of Axi_rDatapump gets for each request, in order of the requests, one frame with the requested words: every word of the bus once, last only in the last word of the request (not at ends of the bursts into which it was split) and strb which marks all bytes but in the last word, where it marks rem bytes. After an error response or a wrong alignment nothing more is requested or delivered.", "quantifier": "every history of requests, responses and stalls, every bus width, length and MAX_TRANS_OVERLAP", "why_tests_cant": "needs all interleavings of requests with responses of earlier requests", "anchors": ["hwtLib/amba/datapump/r.py: Axi_rDatapump.storeTransInfo, remSizeToStrb, dataHandler, hwImpl", "hwtLib/amba/datapump/base.py: AxiDatapumpBase.addrHandler", "hwtLib/handshaked/fifo.py: HandshakedFifo"]}
{"id": "C75", "title": "Axi_wDatapump writes the frames of the driver and acknowledges them", "statement": "The words of the frames which the driver gives to Axi_wDatapump are written so that the memory gets exactly the enabled bytes of each frame, one after another from the address of its request (also if the address is not aligned to a bus word); the words sent carry last exactly at ends of the issued bursts; a frame is acknowledged once, with the response of its last burst, and never before all of it was sent. Legal requests raise no error; after an error nothing more is requested or sent.", "quantifier": "every history of requests, words, responses and stalls, every bus width, alignment, burst limit and MAX_TRANS_OVERLAP", "why_tests_cant": "needs all offsets, lengths and interleavings of words with bursts and responses", "anchors": ["hwtLib/amba/datapump/w.py: Axi_wDatapump.storeTransInfo, axiWHandler, axiBHandler, hwImpl", "hwtLib/amba/datapump/base.py: AxiDatapumpBase.addrHandler", "hwtLib/handshaked/fifo.py: HandshakedFifo"]}
{"id": "C76", "title": "FlipRegister, FlipCntr and FlipRam keep the two halves apart", "statement": "With select_sig = 0 the first port works with the first register/counter/RAM and the second port with the second one, with select_sig = 1 they are exchanged: a value written through a port stays in the half to which the port was connected until it is written again, and a read returns the value of the half to which the port was connected when the read was issued. FlipCntr loses no increment and counts none twice.", "quantifier": "every sequence of accesses on both ports and of changes of select_sig, every width", "why_tests_cant": "the result depends on the whole history of writes and flips", "anchors": ["hwtLib/mem/atomic/flipReg.py: FlipRegister", "hwtLib/mem/atomic/flipCntr.py: FlipCntr", "hwtLib/mem/atomic/flipRam.py: FlipRam"]}
{"id": "C77", "title": "RamCumulativeMask keeps data and the cumulative byte mask", "statement": "A read accepted by a port of RamCumulativeMask returns the data and mask of the word after all writes accepted before: an accepted write replaces the enabled bytes and sets the mask to its byte enables, or, with do_accumulate and without do_overwrite, adds them to the mask. A write waits at most one cycle.", "quantifier": "every sequence of writes and reads on all ports, every width of the word, every initial content", "why_tests_cant": "the mask is a function of the whole history of the writes; the accumulating write takes two cycles in which anything can happen on other ports", "anchors": ["hwtLib/mem/ramCumulativeMask.py: RamCumulativeMask, BramPort_withReadMask_withoutClk", "hwtLib/mem/ram.py: RamSingleClock"]}
{"id": "C78", "title": "HashTableCore answers lookups from the addressed item", "statement": "Each accepted lookup of HashTableCoreWithRam gets exactly one result, in order of the lookups: the hash of its key, and key, data and validity of the item stored under this hash by the inserts accepted before; found is set exactly if this item is valid and has the looked up key. Results are ready two cycles after the lookup, lookups are accepted while results are taken, and an insert is accepted in every cycle without an accepted lookup.", "quantifier": "every sequence of lookups and inserts with stalls of the consumer, every width, every hash function and initial content", "why_tests_cant": "the answer depends on the history of inserts and the stalls of the result", "anchors": ["hwtLib/mem/hashTableCore.py: HashTableCore", "hwtLib/mem/hashTableCoreWithRam.py: HashTableCoreWithRam", "hwtLib/handshaked/ramAsAddrDataRdVld.py: RamAsAddrDataRdVld"]}
{"id": "C79", "title": "CuckooHashTable is a map", "statement": "After the first clean, CuckooHashTable behaves as a map from keys to data: a lookup finds its key exactly if the key is in the map and then returns its data, results come in the order of the lookups; an insert adds or overwrites the key, whatever was moved between the tables, and its result names an item of the map with the inserted one which is removed from the map if pop is set; delete removes its key and nothing else; clean empties it. No command is accepted during an insert. Each command ends in at most max(table size, 3*MAX_REINSERT+1) cycles if the tables and the reader of the insert results are ready.", "quantifier": "every sequence of commands, every timing of the tables, every number and size of tables, every hash functions, MAX_REINSERT and MAX_LOOKUP_OVERLAP", "why_tests_cant": "the place of an item depends on the whole history of inserts which move each other; chains of moves have any length", "anchors": ["hwtLib/mem/cuckooHashTable.py: CuckooHashTable", "hwtLib/mem/hashTableCore.py: HashTableCore"]}
{"id": "C80", "title": "AxiLiteEndpoint maps an address space", "statement": "AxiLiteEndpoint takes one write and one read at once. Each write is answered once, with OKAY exactly if its address is in the address space; its data changes exactly the register or the memory item of its address. Each read is answered once, with OKAY exactly if its address is in the address space, and the data of the registers of its word in the cycle of the answer or of the memory item at the time when the read was accepted. Reads of registers are answered in the next cycle, reads of memories in the cycle after the first cycle without written data. Fields may share a word or be padded; memories may be aligned or not. ", "quantifier": "every address space, every interleaving of reads and writes with stalls, every value of registers and memories", "why_tests_cant": "the answer depends on the history of writes, the layout of the space and the timing of reads against writes", "anchors": ["hwtLib/abstract/busEndpoint.py: BusEndpoint", "hwtLib/abstract/addressStepTranslation.py: AddressStepTranslation", "hwtLib/amba/axiLite_comp/endpoint.py: AxiLiteEndpoint"]}
{"id": "C81", "title": "Mi32Endpoint maps an address space", "statement": "Mi32Endpoint takes a request in every cycle; a write changes exactly the register or memory item of its address; a read of the address space is answered in the next cycle with the registers or the memory item of its address as they were when it was accepted, a read elsewhere gets no answer, nothing else does. Fields may share a word or be padded; memories may be aligned or not. ", "quantifier": "every address space, every sequence of requests, every value of registers and memories", "why_tests_cant": "the answer depends on the history of writes and on the layout of the space", "anchors": ["hwtLib/abstract/busEndpoint.py: BusEndpoint", "hwtLib/abstract/addressStepTranslation.py: AddressStepTranslation", "hwtLib/cesnet/mi32/endpoint.py: Mi32Endpoint"]}
{"id": "C82", "title": "BramPortEndpoint maps an address space", "statement": "BramPortEndpoint behaves as a memory: in the cycle after a cycle with en, dout has the registers or the memory item of the address as they were in that cycle; a cycle with en and we writes exactly the register or the memory item of the address. Fields may share a word or be padded; memories may be aligned or not. ", "quantifier": "every address space, every sequence of accesses, every value of registers and memories", "why_tests_cant": "the answer depends on the history of writes and on the layout of the space", "anchors": ["hwtLib/abstract/busEndpoint.py: BusEndpoint", "hwtLib/abstract/addressStepTranslation.py: AddressStepTranslation", "hwtLib/mem/bramPortEndpoint.py: BramPortEndpoint"]}
{"id": "C83", "title": "AvalonMmEndpoint maps an address space", "statement": "AvalonMmEndpoint never requests waiting; each read is answered in the next cycle with the registers of its word in that cycle or the memory item at the time of the read; each write is confirmed in the next cycle and changes exactly the register or the memory item of its address; the response is OKAY exactly for addresses in the address space. Fields may share a word or be padded; memories may be aligned or not. ", "quantifier": "every address space, every sequence of requests, every value of registers and memories", "why_tests_cant": "the answer depends on the history of writes and on the layout of the space", "anchors": ["hwtLib/abstract/busEndpoint.py: BusEndpoint", "hwtLib/abstract/addressStepTranslation.py: AddressStepTranslation", "hwtLib/avalon/endpoint.py: AvalonMmEndpoint"]}
{"id": "C84", "title": "IpifEndpoint maps an address space", "statement": "For a master which keeps a request until its acknowledge, IpifEndpoint acknowledges each request of the address space in its second cycle and nothing else; an acknowledged write changes exactly the register or the memory item of its address once; an acknowledged read has the registers or the memory item of its address. Fields may share a word or be padded; memories may be aligned or not. ", "quantifier": "every address space, every sequence of requests, every value of registers and memories", "why_tests_cant": "the answer depends on the history of writes and on the layout of the space", "anchors": ["hwtLib/abstract/busEndpoint.py: BusEndpoint", "hwtLib/abstract/addressStepTranslation.py: AddressStepTranslation", "hwtLib/xilinx/ipif/endpoint.py: IpifEndpoint"]}
{"id": "C85", "title": "Axi4S_fifoMeasuring keeps frames and measures them", "statement": "Axi4S_fifoMeasuring outputs the accepted words in their order, unchanged except that a frame is closed after MAX_LEN+1 words; the sizes output has, in the order of the frames, the number of bytes of each frame which was closed (by its last word or by the limit). Input is accepted while there is space in the buffers, offered words and sizes stay until taken, and errorAlignment reports a word inside of a frame which is not full before this word leaves.", "quantifier": "every stream of words with every strobe, every stall of both outputs, every MAX_LEN, SIZES_BUFF_DEPTH and data width", "why_tests_cant": "the sizes depend on the whole frame, and the two outputs are stalled independently", "anchors": ["hwtLib/amba/axis_comp/fifoMeasuring.py: Axi4S_fifoMeasuring"]}
{"id": "C86", "title": "ArrayItemGetter reads the items of an array", "statement": "If the memory answers the requests of ArrayItemGetter in order, then it hands over, in the order of the accepted indexes, the item of the array at base with this index, each once; with several items in a data word at most MAX_TRANS_OVERLAP items are outstanding. An offered item stays until it is taken; of two successive cycles with an offered word and a ready user at least one hands over an item.", "quantifier": "every memory content, base, sequence of indexes, stalls of memory and user, every item size, width of the data word and overlap", "why_tests_cant": "the item selected in an answer depends on the index of a request which was made any number of cycles before", "anchors": ["hwtLib/structManipulators/arrayItemGetter.py: ArrayItemGetter", "hwtLib/handshaked/fifo.py: HandshakedFifo"]}
{"id": "C87", "title": "MMU_2pageLvl translates addresses through two tables", "statement": "If the memory answers in order, the physical addresses which MMU_2pageLvl hands over are exactly the translations of the first accepted virtual addresses, in order: item of the first level table at the time of the request, item of the second level table in the memory, offset of the page; nothing is handed over from the first address on which is not mapped (bit 0 of an item is set). segfault is raised only if an accepted address is not mapped, it stays, and nothing is offered since then. If all accepted addresses are mapped and the memory and the user are willing, all translations are handed over in 3 cycles per address and 2 more. An offered physical address stays until it is taken.", "quantifier": "every content of both tables, every sequence of addresses, writes of the first table in cycles without an accepted address, stalls of memory and user, every page size and size of tables, MAX_OVERLAP >= 4", "why_tests_cant": "translations overlap, and a fault of one address can appear while others are in any of the three stages", "anchors": ["hwtLib/structManipulators/mmu_2pageLvl.py: MMU_2pageLvl", "hwtLib/structManipulators/arrayItemGetter.py: ArrayItemGetter", "hwtLib/handshaked/ramAsAddrDataRdVld.py: RamAsAddrDataRdVld"]}
{"id": "C88", "title": "AxiInterconnectMatrixR routes reads and their data", "statement": "In every run of the read interconnect there is one order of all read requests such that each request is passed to the connected slave which owns its address (with the address relative to it), each master and each slave sees its requests in this order, and the words of data which a master receives are the words which the slaves sent for its requests, in the order of its requests, complete up to the last word before the next request. If data are wanted and offered, a word is transferred; a master with a request for a ready slave is served within as many cycles as there are masters, below the limit of outstanding requests.", "quantifier": "every number of masters and slaves, connection in which no connected pair is separate from the rest (or a pair connected only to each other), map of disjoint aligned regions, MAX_TRANS_OVERLAP >= 2, sequence of requests, data and stalls", "why_tests_cant": "masters and slaves interleave without bound, and the data return any time later", "anchors": ["hwtLib/amba/axi_comp/interconnect/matrixR.py: AxiInterconnectMatrixR", "hwtLib/amba/axi_comp/interconnect/matrixAddrCrossbar.py: AxiInterconnectMatrixAddrCrossbar", "hwtLib/amba/axi_comp/interconnect/matrixCrossbar.py: AxiInterconnectMatrixCrossbar"]}
{"id": "C89", "title": "AxiInterconnectMatrixW routes writes, their data and responses", "statement": "In every run of the write interconnect there is one order of all write requests such that each request is passed to the connected slave which owns its address, the words of data which a slave receives are those which the masters sent for its requests, request by request, and each master receives the responses to its requests in its order. If the data are offered and everything is accepted, a word or a response is transferred; a master with a request for a ready slave is served within as many cycles as there are masters, below the limit of outstanding requests.", "quantifier": "every number of masters and slaves, connection in which no connected pair is separate from the rest (or a pair connected only to each other), map of disjoint aligned regions, MAX_TRANS_OVERLAP >= 2, AW_AND_W_WORD_TOGETHER on or off, sequence of requests, data, responses and stalls", "why_tests_cant": "address, data and response channels of all masters interleave without bound", "anchors": ["hwtLib/amba/axi_comp/interconnect/matrixW.py: AxiInterconnectMatrixW", "hwtLib/amba/axi_comp/interconnect/matrixAddrCrossbar.py: AxiInterconnectMatrixAddrCrossbar", "hwtLib/amba/axi_comp/interconnect/matrixCrossbar.py: AxiInterconnectMatrixCrossbar"]}
{"id": "C90", "title": "an interconnect keeps an offered request stable", "statement": "A request (valid and its payload) which the interconnect offers to a slave stays unchanged until the slave takes it, as the AXI protocol requires.", "quantifier": "every configuration, sequence of requests and stalls", "why_tests_cant": "the request of the slave depends on the arbitration among all masters in every cycle", "anchors": ["hwtLib/amba/axi_comp/interconnect/matrixAddrCrossbar.py: AxiInterconnectMatrixAddrCrossbar.addr_handler_N_to_M"]}
{"id": "C91", "title": "AxiInterconnectMatrix connects the pairs it was configured for", "statement": "In AxiInterconnectMatrix a read (write) request of a master reaches a slave exactly if the configuration lets the master read (write) the slave and the address lies in the region of this slave; every port is connected once, and every interconnect inside is a configuration for which the routing properties hold.", "quantifier": "every number of masters and slaves, map and access rights which leave no slave unused, every iteration order of python sets", "why_tests_cant": "the grouping depends on the whole configuration and on the iteration order of sets", "anchors": ["hwtLib/amba/axi_comp/interconnect/matrix.py: AxiInterconnectMatrix", "hwtLib/abstract/busInterconnect.py: BusInterconnect, BusInterconnectUtils"]}
{"id": "C92", "title": "ArrayBuff_writer stores every item to the circular array", "statement": "Every item given to ArrayBuff_writer is written to the memory once and in order: item k goes to cell k mod ITEMS of the array at the configured base address, every write request announces exactly the number of words which follow and the last word is marked; the uploaded counter is the number of items whose write was acknowledged; an item never stays in the buffer longer than the timeout if the datapump accepts.", "quantifier": "every accepted parametrisation (buffer depth, timeout, array size, data width), every sequence of items, stalls and acknowledgements", "why_tests_cant": "items, timeouts, wraps of the array and stalls interleave without bound", "anchors": ["hwtLib/structManipulators/arrayBuff_writer.py: ArrayBuff_writer"]}
{"id": "C93", "title": "CLinkedListReader gives the items of the linked list in order", "statement": "CLinkedListReader outputs the items of the circular linked list in memory in order, following the next pointer at the end of every node, each exactly once; it never requests items beyond those announced by wrPtr; while announced items remain and memory and consumer respond, it keeps delivering.", "quantifier": "every accepted parametrisation, list in memory, announcements by wrPtr (wrapping), sequence of stalls of the datapump and of the consumer", "why_tests_cant": "requests, pointer updates and node boundaries interleave without bound", "anchors": ["hwtLib/structManipulators/cLinkedListReader.py: CLinkedListReader"]}
{"id": "C94", "title": "CLinkedListWriter stores the items to the linked list", "statement": "CLinkedListWriter writes the given items in order to the cells of the circular linked list, following the next pointer at the end of every node and never overwriting it; every request is followed by exactly its words; it never requests more words than the free space announced by rdPtr; items below the burst size are sent after the timeout.", "quantifier": "every accepted parametrisation, chain of nodes, announcements by rdPtr (wrapping), sequence of items, stalls and acknowledgements", "why_tests_cant": "requests, loads of next pointers, stalls and node boundaries interleave without bound", "anchors": ["hwtLib/structManipulators/cLinkedListWriter.py: CLinkedListWriter"]}
{"id": "C95", "title": "Axi4S_frameParser splits frames to fields", "statement": "Axi4S_frameParser configured by a structure of constant size (fields of any widths, unnamed fields are padding, fields may cross words) gives on the output of every named field exactly the bits of this field of every frame, once per frame and in order of frames; a field is offered as soon as the word with its last bit is offered, independently of other outputs, and a word of the input is accepted exactly when all fields which end in it were taken.", "quantifier": "every structure and data width, every input stream, all interleavings of stalls of the source and of every output", "why_tests_cant": "independent stalls of the outputs and part registers combine with any structure and any number of frames", "anchors": ["hwtLib/amba/axis_comp/frame_parser/_parser.py: Axi4S_frameParser", "hwtLib/amba/axis_comp/frame_parser/field_connector.py: Axi4S_frameParserFieldConnector", "hwtLib/amba/axis_comp/frame_parser/out_containers.py: OutNodeInfo", "hwtLib/amba/axis_comp/frame_parser/word_factory.py: WordFactory"]}
{"id": "C96", "title": "Axi4S_frameParser recovers from short and long frames", "statement": "With UNDERFLOW_SUPPORT (OVERFLOW_SUPPORT) a frame may end before (after) the end of the structure: every field gets its value of exactly those frames which contain its end, the next frame is parsed from its first word, error_underflow reports exactly the ends of short frames and parsing_overflow is set behind the structure.", "quantifier": "every structure, data width, sequence of frame lengths, all interleavings of stalls", "why_tests_cant": "the effect of a wrong length is visible only in later frames", "anchors": ["hwtLib/amba/axis_comp/frame_parser/_parser.py: Axi4S_frameParser"]}
{"id": "C97", "title": "Axi4S_frameDeparser builds frames from fields", "statement": "Axi4S_frameDeparser configured by a structure of constant size sends frames in which every field has the next value from the input of this field: field j of frame n is its n-th value; every value is taken exactly when the word with its end is sent; the output is valid exactly when all fields of the current word are offered; the last word of every frame is marked and the strobe marks exactly the bytes of named fields.", "quantifier": "every structure and data width, values, all interleavings of stalls of every input and of the receiver", "why_tests_cant": "inputs which come at different times combine with words shared by several fields", "anchors": ["hwtLib/amba/axis_comp/frame_deparser/_deparser.py: Axi4S_frameDeparser"]}
{"id": "C98", "title": "Axi4S_frameParser inverts Axi4S_frameDeparser", "statement": "The words sent by Axi4S_frameDeparser and received by Axi4S_frameParser with the same structure and data width give back on the output of every field the values from the input of this field, in order, none lost or repeated.", "quantifier": "every structure and data width, values, all interleavings of stalls of inputs, of the connection and of outputs", "why_tests_cant": "it relates unbounded histories of two components", "anchors": ["hwtLib/amba/axis_comp/frame_deparser/_deparser.py: Axi4S_frameDeparser", "hwtLib/amba/axis_comp/frame_parser/_parser.py: Axi4S_frameParser"]}
{"id": "C99", "title": "Axi4sFrameGen sends frames of the configured length", "statement": "After a write of the register len = L, L <= MAX_LEN, and until the next write of len, Axi4sFrameGen sends frames of L + 1 words which follow each other and count L, L - 1, .., 0, with last on the last word; while enabled a word is transferred in exactly the cycles with ready; an offered word stays offered and unchanged until it is taken.", "quantifier": "every MAX_LEN, data width, length, history of register writes and of ready", "why_tests_cant": "any number of frames and any placement of register writes and stalls", "anchors": ["hwtLib/amba/axis_comp/frameGen.py: Axi4sFrameGen"]}
{"id": "C100", "title": "MdioMaster puts requests on the bus and returns read data", "statement": "Every request accepted by MdioMaster is put on the MDIO line as seen by a receiver which samples it at rising edges of the clock: a preamble of at least 32 ones, start, opcode, both addresses, and for a write the turnaround and the data, each most significant bit first; for a read the line is released behind the addresses and the result is the 16 bits on the line at the last 16 rising edges, offered until taken; every bit is held over the rising edge; the line is released between transactions and every transaction ends within 128 half periods.", "quantifier": "every ratio of clocks, phase of the clock, request, history of requests, levels of the line and stalls of the reader", "why_tests_cant": "requests come in any phase of the divided clock and a transaction takes thousands of cycles", "anchors": ["hwtLib/peripheral/mdio/master.py: MdioMaster", "hwtLib/peripheral/mdio/intf.py: Mdio"]}
{"id": "C101", "title": "SpiMaster exchanges each word with the slave", "statement": "Every word which the user keeps on the interface of SpiMaster until its response is exchanged with the slave by exactly 8 rising edges of the clock, at which mosi holds the bits of the word most significant first, and the response is the 8 levels of miso sampled at the same edges; the slave is selected and the clock idle for the configured time before the first edge of a transfer; the slave stays selected until the word marked as last and is deselected behind it.", "quantifier": "every prescaler, length of the wait, sequence of words and gaps between them, levels of miso, and start values of the shift registers", "why_tests_cant": "one word takes hundreds of cycles; the words, gaps and parameters are unbounded", "anchors": ["hwtLib/peripheral/spi/master.py: SpiMaster", "hwtLib/peripheral/spi/intf.py: Spi", "hwtLib/clocking/timers.py: TimerInfo"]}
{"id": "C102", "title": "Axi4S_footerSplit splits each frame into data and footer", "statement": "For every sequence of frames of at least FOOTER_WIDTH bits, the first output of Axi4S_footerSplit carries, frame by frame and in order, the bytes of the frame without the footer (an empty frame if there are none) and the second one exactly the last FOOTER_WIDTH bits, whatever the stalls of the source and both sinks; nothing is lost, invented or mixed between frames; all complete frames leave without further input, and with ready sinks a word is accepted every cycle.", "quantifier": "every width of data and footer in bytes, every sequence of frames of any length and alignment, every schedule of valid and ready, start content of registers", "why_tests_cant": "the footer is found only when the end of the frame comes, for every alignment of it, with words of two frames in the registers and holes between them", "anchors": ["hwtLib/amba/axis_comp/frame_parser/footer_split.py: Axi4S_footerSplit"]}
{"id": "C103", "title": "Outputs of Axi4S_footerSplit follow the handshake rules", "statement": "A word offered on an output of Axi4S_footerSplit stays offered unchanged until it is taken, and an output does not wait for ready of a sink before it offers the word.", "quantifier": "every width, sequence of frames and schedule of valid and ready", "why_tests_cant": "depends on the relative timing of both sinks", "anchors": ["hwtLib/amba/axis_comp/frame_parser/footer_split.py: Axi4S_footerSplit"]}
{"id": "C104", "title": "Lookup in AxiCacheTagArray agrees with all earlier updates", "statement": "Every address accepted on a lookup port of AxiCacheTagArray is answered exactly once on the same port, in order and with its id, from the next cycle on; the answer offered in a cycle says found exactly if, after all inserts and deletes of the previous cycles (also of the one just before, and also those which came while the answer waited), some way of the line holds the tag of the address, and way is the lowest such way; a port waits only for its own sink. Two addresses share an entry exactly if they are in the same cache line.", "quantifier": "every configuration which elaborates (address width, line size, count of lines and ways), any number of lookup ports, every history of updates and lookups, every back pressure, every start content of the memory", "why_tests_cant": "the tag memory is one cycle late, so that the answer depends on the relative timing of updates, lookups and stalls of the sink", "anchors": ["hwtLib/amba/axi_comp/cache/tag_array.py: AxiCacheTagArray", "hwtLib/amba/axi_comp/cache/addrTypeConfig.py: CacheAddrTypeConfig"]}
{"id": "C105", "title": "lookupRes.tags of AxiCacheTagArray is the current content of the line", "statement": "The records lookupRes.tags offered with an answer are the content of all ways of the line after all updates of the previous cycles, consistent with found and way of the same answer.", "quantifier": "every configuration, history of updates and lookups, back pressure", "why_tests_cant": "depends on an update hitting the line exactly in the cycle before the answer", "anchors": ["hwtLib/amba/axi_comp/cache/tag_array.py: AxiCacheTagArray"]}
{"id": "C106", "title": "Axi4streamToMem writes DATA_LEN words to consecutive addresses", "statement": "Each transfer of Axi4streamToMem puts on AXI exactly the bursts of DATA_LEN words from the base address on, each burst of at most MAX_BUTST_LEN words, with addresses which follow each other, the right len, an address before its words and last exactly on the last word of each burst; the words are those taken from the input in order; a transfer starts only if on/off is on and idle is shown, a started transfer is finished also if on/off is cleared, and idle is shown only if everything was sent; requests are held until taken.", "quantifier": "every DATA_LEN >= 1, MAX_BUTST_LEN >= 1 (8 bit), widths, every schedule of valid and ready and of register writes", "why_tests_cant": "depends on lengths and bursts not dividing each other and on the schedule of three handshakes", "anchors": ["hwtLib/amba/axi_comp/stream_to_mem.py: Axi4streamToMem"]}
{"id": "C107", "title": "Control register of Axi4streamToMem reads as documented", "statement": "Reading the control register of Axi4streamToMem gives on/off in bit 0 and idle in bit 1.", "quantifier": "every data width, both flags", "why_tests_cant": "the tests of the component would have to read the register in all combinations of flags; the width is a parameter", "anchors": ["hwtLib/amba/axi_comp/stream_to_mem.py: Axi4streamToMem.connectRegisters"]}
{"id": "C108", "title": "Bursts of Axi4streamToMem do not cross 4 KiB", "statement": "No burst which Axi4streamToMem puts on AXI crosses an address which is a multiple of 4096 (a rule of AXI).", "quantifier": "every base address, DATA_LEN, MAX_BUTST_LEN, data width", "why_tests_cant": "depends on the base address", "anchors": ["hwtLib/amba/axi_comp/stream_to_mem.py: Axi4streamToMem.axiWAddrHandler"]}
{"id": "C109", "title": "I2C bit controller makes the documented waves", "statement": "For every sequence of START, STOP, READ, WRITE commands and pauses I2cMasterBitCtrl drives SCL and SDA as in its documentation and confirms each command exactly in its last cycle; while SCL is released SDA changes only as the start condition of START or the stop condition of STOP, also if the arbitration is lost.", "quantifier": "every sequence of commands, pauses, data bits, levels of lines and clk_cnt_initVal", "why_tests_cant": "the wave of a command depends on the levels left by all commands before it", "anchors": ["hwtLib/peripheral/i2c/masterBitCntrl.py: I2cMasterBitCtrl"]}
{"id": "C110", "title": "clk_cnt_initVal gives the period of SCL", "statement": "The levels of SCL of I2cMasterBitCtrl last as long as clk_cnt_initVal says and a slave which holds SCL low is waited for.", "quantifier": "every clk_cnt_initVal, every history", "why_tests_cant": "every value of the 16 bit input and every delay of the slave", "anchors": ["hwtLib/peripheral/i2c/masterBitCntrl.py: I2cMasterBitCtrl"]}
{"id": "C111", "title": "READ of the I2C bit controller returns SDA", "statement": "The bit read by READ of I2cMasterBitCtrl is the level of SDA while SCL is high.", "quantifier": "every history", "why_tests_cant": "depends on the time of the lines against the sampling", "anchors": ["hwtLib/peripheral/i2c/masterBitCntrl.py: I2cMasterBitCtrl"]}
{"id": "C112", "title": "I2C bit controller reports lost arbitration", "statement": "arbitrationLost of I2cMasterBitCtrl is signalled if the controller releases SDA and the bus is low, or if a stop which was not requested is seen, and in no other case.", "quantifier": "every history of both lines and commands", "why_tests_cant": "depends on all interleavings of the controller with other masters", "anchors": ["hwtLib/peripheral/i2c/masterBitCntrl.py: I2cMasterBitCtrl"]}
{"id": "C113", "title": "I2C bit controller ignores glitches", "statement": "Pulses on SCL and SDA which are not longer than the sampling period, at least two periods apart, are not seen by I2cMasterBitCtrl: no edge, no stop and no lost arbitration follows.", "quantifier": "every clk_cnt_initVal, every position of pulses against the sampling", "why_tests_cant": "all positions and lengths of pulses", "anchors": ["hwtLib/peripheral/i2c/masterBitCntrl.py: I2cMasterBitCtrl"]}
{"id": "C114", "title": "Axi4Stream to LocalLink and back preserves words", "statement": "A stream of frames which goes through Axi4SToLocalLink and LocalLinkToAxi4S comes out with the same data, strb and last in each word, with start and end of packet set at the borders of frames, and valid and ready are passed without loss.", "quantifier": "every sequence of frames, every schedule of valid and ready, every data width, every number of bytes in the last word", "why_tests_cant": "depends on the width and on the whole sequence of words", "anchors": ["hwtLib/xilinx/locallink/axis_conv.py: Axi4SToLocalLink, LocalLinkToAxi4S", "hwtLib/xilinx/locallink/hIOLocallink.py: LocalLink"]}
{"id": "C115", "title": "LocalLink frames are marked at their first and last word", "statement": "Axi4SToLocalLink sets sof exactly on the first and eof exactly on the last word of each frame, each frame starts and ends a packet, rem is the number of the last used byte, and LocalLink frames which go through Axi4Stream come back unchanged.", "quantifier": "every sequence of frames, every schedule, every data width", "why_tests_cant": "depends on the whole sequence of words", "anchors": ["hwtLib/xilinx/locallink/axis_conv.py: Axi4SToLocalLink, LocalLinkToAxi4S", "hwtLib/xilinx/locallink/hIOLocallink.py: LocalLink"]}
{"id": "C116", "title": "AxiResize accesses the same bytes through the wider bus", "statement": "A master of an Axi4-Lite bus behind AxiResize (DATA_WIDTH < OUT_DATA_WIDTH) reads and writes the same bytes of the memory as if it were connected directly: the k-th write changes exactly the bytes selected by its strb at its address, the k-th read returns the word at its address, and addresses, prot and responses stay in order.", "quantifier": "every sequence of reads and writes, every schedule of valid and ready on all channels, every pair of widths of 2^a and 2^b bytes with 1 <= a < b, every MAX_TRANS_OVERLAP >= 2, every address which fits the output", "why_tests_cant": "pairs of addresses and data depend on the history of two buffers and on the schedule", "anchors": ["hwtLib/amba/axi_comp/resize.py: AxiResize"]}
{"id": "C117", "title": "AxiResize holds its offers and does not get stuck", "statement": "Once AxiResize offers an address, a write word or a read word it keeps offering it unchanged until it is taken (write and read data as long as their source does); an address is accepted whenever none waits inside, is offered whenever fewer than MAX_TRANS_OVERLAP - 1 wait for data, and data pass from the second cycle after their address; responses of writes are passed directly.", "quantifier": "every history, every schedule, every width as in C116", "why_tests_cant": "concerns every reachable state and each pair of following cycles", "anchors": ["hwtLib/amba/axi_comp/resize.py: AxiResize"]}
{"id": "C118", "title": "HsSlrCrossing passes each accepted word once and in order", "statement": "The words delivered on m of HsSlrCrossing are the words accepted on s in the same order, none lost, duplicated or invented, and at most a fixed number of words is inside.", "quantifier": "every sequence of words, every schedule of vld on s and rd on m from the first cycle after reset, every content of the memories without reset", "why_tests_cant": "ready is three registers away from the output, the result depends on all schedules of stalls", "anchors": ["hwtLib/xilinx/slr_crossing.py: HsSlrCrossing, SlrCrossingSrc, SlrCrossingDst", "hwtLib/xilinx/primitive/lutAsShiftReg.py: LutAsShiftReg"]}
{"id": "C119", "title": "HsSlrCrossing holds its output and drains", "statement": "A word offered on m of HsSlrCrossing stays until it is taken, five cycles of a ready consumer deliver everything accepted before, and the producer is stalled exactly if the output was blocked two cycles earlier.", "quantifier": "every history, every schedule", "why_tests_cant": "progress from every reachable state", "anchors": ["hwtLib/xilinx/slr_crossing.py: HsSlrCrossing, SlrCrossingSrc, SlrCrossingDst", "hwtLib/xilinx/primitive/lutAsShiftReg.py: LutAsShiftReg"]}
{"id": "C120", "title": "Axi4Lite_to_Ipif makes one IPIF access for each Axi4-Lite access", "statement": "Each read or write accepted by Axi4Lite_to_Ipif becomes exactly one IPIF access with the same address, data and byte enables, its answer (data, and SLVERR if the slave signals an error) is returned before the next address is accepted, and nothing else is accessed or answered.", "quantifier": "every sequence of reads and writes, every schedule of valid and ready on the five channels, every delay of acknowledges of a slave which acknowledges only while selected", "why_tests_cant": "all interleavings of five channels with the delays of the slave", "anchors": ["hwtLib/xilinx/ipif/axi4Lite_to_ipif.py: Axi4Lite_to_Ipif"]}
{"id": "C121", "title": "Axi4Lite_to_Ipif holds responses and selection and makes progress", "statement": "A response on r or b stays unchanged until it is taken, bus2ip_cs with address, data and byte enables stays until the slave acknowledges and ends in the next cycle, and if nobody waits the bridge accepts a new address within three cycles.", "quantifier": "every history as in C120; progress from every state", "why_tests_cant": "every reachable state and the pins of following cycles", "anchors": ["hwtLib/xilinx/ipif/axi4Lite_to_ipif.py: Axi4Lite_to_Ipif"]}
{"id": "C122", "title": "IpifBuff is transparent", "statement": "Through IpifBuff each access of the master is exactly one access of the slave, in the same order, with the same request and the same answer; the request and the answer are delayed by one cycle each.", "quantifier": "every sequence of accesses of a master which keeps its request until the acknowledge (and may start the next one in the following cycle) and does not select in the first cycle after reset, every delay of acknowledges of a slave which acknowledges only while selected, every content of registers without reset", "why_tests_cant": "a request selected one cycle too long is executed twice, for some delay only", "anchors": ["hwtLib/xilinx/ipif/buff.py: IpifBuff"]}
{"id": "C123", "title": "Axi4_to_AvalonMm returns all words of reads", "statement": "Each read accepted on axi is answered with exactly len + 1 words carrying its id, last only on the final one, and the words are those which the avalon slave returned, in the same order, none lost or duplicated, no matter how long r.ready is low.", "quantifier": "every sequence of reads and writes, both values of RW_PRIORITY, every R_DATA_FIFO_DEPTH, every schedule of all channels, every avalon slave which returns only words of accepted reads", "why_tests_cant": "loss depends on the length of the burst, on fill level of fifo and stalls together", "anchors": ["hwtLib/avalon/axiToMm.py: Axi4_to_AvalonMm"]}
{"id": "C124", "title": "Axi4_to_AvalonMm issues each accepted read once", "statement": "Each read accepted on axi becomes exactly one avalon read with the same address and burstCount = len + 1, in order, at most one is waiting inside, and a read which fits in the fifo is accepted when no write is open and the slave does not wait.", "quantifier": "as C123", "why_tests_cant": "as C123", "anchors": ["hwtLib/avalon/axiToMm.py: Axi4_to_AvalonMm"]}
{"id": "C125", "title": "Axi4_to_AvalonMm executes each accepted write once", "statement": "For each accepted write address the avalon slave gets exactly len + 1 words with its address and burstCount and the data and strobes of w in order, and one response with the id is returned; nothing is written for an address which has not been accepted.", "quantifier": "as C123, with last of w set on the last word of each write", "why_tests_cant": "the failure needs a full read fifo, a waiting read and a write at the same time", "anchors": ["hwtLib/avalon/axiToMm.py: Axi4_to_AvalonMm"]}
{"id": "C126", "title": "AvalonMmBuff passes each request once", "statement": "Each request accepted on s (read or write while waitRequest is low) appears on m exactly once, unchanged and in order; a request under waitRequest on m does not change; the master does not wait when nothing is inside and a buffered request is offered within one cycle.", "quantifier": "every ADDR_BUFF_DEPTH and DATA_BUFF_DEPTH which elaborate, every sequence of requests and every schedule of waitRequest", "why_tests_cant": "depends on fill level of the buffer and the stalls", "anchors": ["hwtLib/avalon/mm_buff.py: AvalonMmBuff"]}
{"id": "C127", "title": "AvalonMmBuff returns all answers", "statement": "Each word of read data and each write response which the slave returns reaches the master, in order, none lost or duplicated.", "quantifier": "every DATA_BUFF_DEPTH which elaborates, every sequence of answers of the slave", "why_tests_cant": "loss depends on the spacing of answers and on the depth together", "anchors": ["hwtLib/avalon/mm_buff.py: AvalonMmBuff"]}
{"id": "C128", "title": "AvalonMm_to_Axi4 makes exactly the transactions of the requests", "statement": "Each read accepted on avalon becomes one ar with its address and len = burstCount - 1; each burst of writes becomes one aw with the address and length of its first word and one w per word with its data and strobes, last only on the final one; all in the order of the requests, none lost or repeated.", "quantifier": "every sequence of requests in which read and write are not set at once and burstCount is at least 1, with and without bursts, every schedule of ar, aw and w ready, every burstCount width", "why_tests_cant": "depends on which of the three channels stalls in which beat of a burst", "anchors": ["hwtLib/avalon/mmToAxi.py: AvalonMm_to_Axi4"]}
{"id": "C129", "title": "AvalonMm_to_Axi4 follows the valid/ready rules on its writes", "statement": "aw.valid and w.valid of a pending write do not wait for ready, and once high stay high until accepted.", "quantifier": "every schedule of ready, also of slaves which wait for valid before they raise ready", "why_tests_cant": "the dead lock needs a slave with a behavior which the simulation agents do not have", "anchors": ["hwtLib/avalon/mmToAxi.py: AvalonMm_to_Axi4"]}
{"id": "C130", "title": "AvalonMm_to_Axi4 returns all answers with their status", "statement": "Each word of read data and each write response from axi reaches the avalon master once, in order, with the status of axi (OKAY and EXOKAY as OKAY, SLVERR, DECERR).", "quantifier": "every sequence of answers", "why_tests_cant": "needs error responses on every kind of answer", "anchors": ["hwtLib/avalon/mmToAxi.py: AvalonMm_to_Axi4"]}
{"id": "C131", "title": "buff(items) of stream builders is a fifo of that many words", "statement": "The component put in a stream by HsBuilder/Axi4SBuilder.buff(items, latency, delay) delivers all accepted words in order, holds a word which is offered, can store items words and neither refuses words while fewer are inside nor hides them for long.", "quantifier": "every items, latency and delay for which buff does not raise, every schedule of valid and ready", "why_tests_cant": "infinite space of parameters and schedules", "anchors": ["hwtLib/abstract/streamBuilder.py: AbstractStreamBuilder.buff", "hwtLib/handshaked/builder.py: HsBuilder"]}
{"id": "C132", "title": "AxiBuff buffers each channel independently", "statement": "Each channel of AxiBuff is a fifo of ADDR_BUFF_DEPTH (ar, aw, b) or DATA_BUFF_DEPTH (w, r) words: all words in order, none lost, progress within two cycles no matter what the other channels do.", "quantifier": "every pair of depths which is not (0, 0), every schedule of all five channels", "why_tests_cant": "infinite space of depths and schedules of five channels", "anchors": ["hwtLib/amba/axi_comp/buff.py: AxiBuff"]}
{"id": "C133", "title": "Mi32Buff is transparent", "statement": "Requests of Mi32Buff appear on m unchanged, once and in order, with at most ADDR_BUFF_DEPTH inside; each word of read data comes back exactly DATA_BUFF_DEPTH cycles after the slave returned it.", "quantifier": "every pair of depths, every sequence of requests and answers, every schedule of ardy", "why_tests_cant": "infinite space of depths and schedules", "anchors": ["hwtLib/cesnet/mi32/buff.py: Mi32Buff"]}
{"id": "C134", "title": "Utmi_to_Ulpi hands over every received byte", "statement": "The bytes which a PHY sends over ULPI (nxt in a cycle in which it owns the bus, turnarounds excluded) appear on utmi.rx exactly once, in order and one cycle later, always with rx.active high; rx.active is low after the bus was returned to the link; LineState is the one of the last RX CMD.", "quantifier": "every sequence of values of all inputs", "why_tests_cant": "infinite space of schedules of dir and nxt", "anchors": ["hwtLib/peripheral/usb/usb2/utmi_to_ulpi.py: Utmi_to_Ulpi"]}
{"id": "C135", "title": "Utmi_to_Ulpi sends every packet unchanged", "statement": "Each packet given to utmi.tx is taken by the PHY as a transmit command with its PID followed by its other bytes in order and closed by stp, packets in order, none lost, merged or repeated, register writes never mixed in; a byte taken from utmi.tx is on the bus in the next cycle and stays until the PHY takes it, even if the PHY takes the bus before it accepted the command.", "quantifier": "every sequence of packets, of changes of the control inputs and every schedule of a PHY which gives nxt only for a command or a byte of an open transfer, not in a turnaround to the link nor with stp, and does not take the bus inside a packet", "why_tests_cant": "infinite space of packets and schedules", "anchors": ["hwtLib/peripheral/usb/usb2/utmi_to_ulpi.py: Utmi_to_Ulpi"]}
{"id": "C136", "title": "Registers of the PHY follow the control inputs of Utmi_to_Ulpi", "statement": "After function_control or otg_control changes, the new value is written to the register of the PHY; when the bridge is ready for a packet the registers of the PHY hold the current values.", "quantifier": "every history of the control inputs, every schedule of the PHY", "why_tests_cant": "the failure needs a change within the few cycles of a write", "anchors": ["hwtLib/peripheral/usb/usb2/utmi_to_ulpi.py: Utmi_to_Ulpi"]}
{"id": "C137", "title": "Utmi_to_Ulpi drives the ULPI bus when it owns it", "statement": "data.t enables the drivers of the link in every cycle in which the link owns the bus and in no other one (as stated in ulpi_agent.py).", "quantifier": "every state and input", "why_tests_cant": "depends on the reachable states and schedules of dir and nxt", "anchors": ["hwtLib/peripheral/usb/usb2/utmi_to_ulpi.py: Utmi_to_Ulpi", "hwtLib/peripheral/usb/usb2/ulpi_agent.py: UlpiAgent.driver"]}
{"id": "C138", "title": "Utmi_to_Ulpi decodes each RX CMD", "statement": "After an RX CMD the interrupt outputs, rx.active, rx.error and LineState show its content; an interrupt flag is cleared by an RX CMD which does not contain the event (comment in the code).", "quantifier": "every history of RX CMDs and of other traffic", "why_tests_cant": "depends on the history of flags", "anchors": ["hwtLib/peripheral/usb/usb2/utmi_to_ulpi.py: Utmi_to_Ulpi"]}
{"id": "C139", "title": "The write dispatcher of the LSU writes whole cachelines", "statement": "Each item of read_execute is read from the data memory word by word and written by exactly one transaction: an aw with its id and address and len for the whole cacheline, all words in order with their byte masks and last on the final one; items in order, none lost, repeated or mixed; offered aw and w are stable; read_confirm repeats the responses.", "quantifier": "every number of words in a cacheline, every sequence of items, every schedule of the memory port and of aw, w and b", "why_tests_cant": "infinite space of schedules; the stall of w after a read was started needs a backup register", "anchors": ["hwtLib/amba/axi_comp/lsu/write_aggregator_write_dispatcher.py: AxiWriteAggregatorWriteDispatcher"]}
{"id": "C140", "title": "The write dispatcher of the LSU makes progress", "statement": "An item offered on read_execute is written, if the memory and the bus eventually accept.", "quantifier": "every schedule in which aw.ready may wait for aw.valid as AXI allows", "why_tests_cant": "needs a run without bound", "anchors": ["hwtLib/amba/axi_comp/lsu/write_aggregator_write_dispatcher.py: AxiWriteAggregatorWriteDispatcher"]}
{"id": "C141", "title": "Aligned bursts on the AXI simulation memory", "statement": "A write burst stores exactly the bytes with strobe, to consecutive words from its address, and leaves all other bytes (also what is not known about them) as they were. A read burst returns the words from its address with its id and last on the final one.", "quantifier": "every size of a word, content of the memory, address, length of the burst, data, validity of data and strobes", "why_tests_cant": "the memory stores cells in three representations and every strobe takes another path; tests write whole words", "anchors": ["hwtLib/amba/axi_comp/sim/ram.py: Axi4SimRam", "hwtLib/amba/datapump/sim_ram.py: AxiDpSimRam.checkRequests, onReadReq, onWriteReq"]}
{"id": "C142", "title": "Order of transactions on the AXI simulation memory", "statement": "Reads are answered in the order of requests, each with the content of the memory at its arrival. The memory always contains whole writes only, in the order of requests, and the acknowledges are of exactly these writes; all writes are done once their data came.", "quantifier": "every schedule of requests and data in which an agent delivers at most one request of a channel between two checks, every length of the history", "why_tests_cant": "infinite space of schedules", "anchors": ["hwtLib/amba/axi_comp/sim/ram.py: Axi4SimRam", "hwtLib/amba/datapump/sim_ram.py: AxiDpSimRam.checkRequests, onReadReq, onWriteReq"]}
{"id": "C143", "title": "Unaligned addresses on the AXI simulation memory", "statement": "With allow_unaligned_addr a burst at an unaligned address reads and writes the bytes from its address.", "quantifier": "every content, address, data and strobe", "why_tests_cant": "the memory test uses aligned addresses", "anchors": ["hwtLib/amba/axi_comp/sim/ram.py: Axi4SimRam", "hwtLib/amba/datapump/sim_ram.py: AxiDpSimRam.checkRequests, onReadReq, onWriteReq"]}
{"id": "C144", "title": "RamTransactional reads and swaps items of one word atomically", "statement": "A read returns the content of its item, a write with flush stores its word and sends the overwritten content with the address exactly once, all in the order in which the transactions were accepted; nothing is lost or repeated.", "quantifier": "every sequence of transactions and every schedule of all five channels", "why_tests_cant": "atomicity must hold for every interleaving; the tests keep the receivers ready or look only at the total", "anchors": ["hwtLib/mem/ramTransactional.py: RamTransactional", "hwtLib/handshaked/ramAsAddrDataRdVld.py: RamAsAddrDataRdVld"]}
{"id": "C145", "title": "RamTransactional items of several words", "statement": "The words of a write are stored in the item of its address, a read returns all words of its item in order with last on the final one, and transactions are atomic in relation to each other.", "quantifier": "every number of words in an item, every sequence of transactions and every schedule", "why_tests_cant": "atomicity must hold for every interleaving", "anchors": ["hwtLib/mem/ramTransactional.py: RamTransactional", "hwtLib/handshaked/ramAsAddrDataRdVld.py: RamAsAddrDataRdVld"]}
{"id": "C146", "title": "Axi4S_eq tells whether a frame carries the constant", "statement": "For every frame of the size of the constant exactly one result is produced and it is 1 if and only if the frame carries the constant.", "quantifier": "every width of the constant and of the word, every constant, sequence of frames and schedule of both sides", "why_tests_cant": "the answer must be right for every frame and every place where the consumer stalls; the component has no test", "anchors": ["hwtLib/peripheral/ethernet/_axis_eq.py: Axi4S_eq"]}
{"id": "C147", "title": "AxiCacheLruArray accesses update the record of their index", "statement": "Each increment marks its way and each request for a victim marks the victim in the record of the index, accesses of one cycle are merged; the victim is chosen from the record made by all previous accesses.", "quantifier": "every number of incr ports, every history of accesses on all ports and every pair of functions which mark ways and choose a victim", "why_tests_cant": "records depend on the whole history of all ports; the component has no test", "anchors": ["hwtLib/amba/axi_comp/cache/lru_array.py: AxiCacheLruArray", "hwtLib/mem/ramXor.py: RamXorSingleClock"]}
{"id": "C148", "title": "AxiCacheLruArray answers each request for a victim once", "statement": "Each accepted request for a victim is answered exactly once and the offered answer does not change until it is taken.", "quantifier": "every schedule of all ports", "why_tests_cant": "it must hold for every place where the receiver stalls or set is used", "anchors": ["hwtLib/amba/axi_comp/cache/lru_array.py: AxiCacheLruArray", "hwtLib/mem/ramXor.py: RamXorSingleClock"]}
{"id": "C149", "title": "USB 2 receiver gives the bytes of packets once and marks the final one", "statement": "Each byte received from UTMI in a packet is given exactly once and in order, with its error flag, and last is set on the final byte of the packet only.", "quantifier": "every sequence of packets and every timing of valid inside the packets", "why_tests_cant": "the final byte is known only after the packet, all positions of cycles without valid have to be considered", "anchors": ["hwtLib/peripheral/usb/usb2/sie_rx.py: Usb2SieDeviceRx._Utmi_8b_rx_to_DataErrVldStrbLast"]}
{"id": "C150", "title": "USB 2 transmitter separates frames for UTMI", "statement": "The transceiver gets all bytes of the stream once and in order, and the packets it sees, which are separated by cycles without valid, are the frames of the stream if valid does not go low inside a frame; a ready transceiver gets an offered byte after one cycle at the latest.", "quantifier": "every stream of frames and every schedule of the transceiver", "why_tests_cant": "frames must not merge for any place where the transceiver stalls", "anchors": ["hwtLib/peripheral/usb/usb2/sie_tx.py: Usb2SieDeviceTx._Axi4Stream_to_Utmi_8b_tx"]}
{"id": "C151", "title": "Axi4S_strFormat prints the format with its arguments", "statement": "The output is an endless sequence of frames, each of them is the text of the format: constant strings, the given number of lowest digits of numbers in bases 2, 8, 10 and 16 and frames from the string arguments, each of which is used once; the output never stops if the consumer and the strings do not.", "quantifier": "every format accepted by the elaboration, all values of the arguments which do not change, all strings and every schedule of the consumer and of the strings", "why_tests_cant": "formats, values and schedules are unbounded", "anchors": ["hwtLib/amba/axis_comp/strformat.py: Axi4S_strFormat", "hwtLib/logic/binToBcd.py: BinToBcd"]}
{"id": "C152", "title": "axiS_strFormat parses format strings as documented", "statement": "A format string made of texts and groups {name:digits type} is parsed to the same texts and items; doubled brackets stand for single ones; a leading zero of the number of digits selects zeros instead of spaces.", "quantifier": "every text and every sequence of groups", "why_tests_cant": "format strings are unbounded; the tests have a few of them", "anchors": ["hwtLib/amba/axis_comp/strformat_fn.py: _parse_format_groups, axiS_strFormat"]}
{"id": "C153", "title": "exceptions raised by hw_raise are delivered to the handler", "statement": "The pending flag is set if and only if an exception was raised in some previous cycle and was not handled yet, and each raised exception is offered until the handler takes it.", "quantifier": "every history of raises and of ready of the handler", "why_tests_cant": "all histories", "anchors": ["hwtLib/abstract/hwExceptionCtx.py: HwExceptionCtx.hw_raise"]}
{"id": "C154", "title": "Hd44780Driver prints the text which was sent to it", "statement": "The commands sent to the display are, in order, those of the characters taken: newline moves the cursor to the next line (the first one after the last one), cleans that line with spaces and moves the cursor back to its beginning, form feed clears the display and sets the cursor to the first line, any other character is written; nothing is lost, repeated or sent before its character; a character is taken within LCD_COLS + 3 cycles if the display is ready.", "quantifier": "every text, every stalling of the display, every number of rows and columns", "why_tests_cant": "texts and stalls are unbounded", "anchors": ["hwtLib/peripheral/displays/hd44780/driver.py: Hd44780Driver._translate_data_in"]}
{"id": "C155", "title": "IpifInterconnectMatrix routes each access to the slave of its address", "statement": "A slave is selected exactly if the master selects an address of its region; it gets the offset in its region and the rest of the access unchanged, and the master gets its acknowledges, error and data. An access outside of all regions selects nobody and is not acknowledged.", "quantifier": "every map accepted by the constructor which lies in the address space, every access and every answers of the slaves", "why_tests_cant": "maps, addresses and answers are unbounded", "anchors": ["hwtLib/xilinx/ipif/interconnectMatrix.py: IpifInterconnectMatrix.hwImpl"]}
{"id": "C156", "title": "Endpoint buffers of a USB device send whole packets in order", "statement": "The words given to the host during a transfer with an endpoint are the words taken from that endpoint, in order and without a loss; a word of a buffered endpoint is offered only if its whole packet was taken before; an unbuffered endpoint is passed in the same cycle. A waiting packet makes progress. A transfer with an unknown endpoint is answered by a stall. A packet which was not transferred successfully is sent again and every packet up to the maximal size can be sent.", "quantifier": "every set of endpoints with distinct indexes, every sizes of buffers which are accepted and every behavior of the host and of the functions", "why_tests_cant": "runs and configurations are unbounded", "anchors": ["hwtLib/peripheral/usb/usb2/device_ep_buffers.py: UsbDeviceEpBuffers.connect_tx_part, UsbDeviceEpBuffers.hwImpl"]}
{"id": "C157", "title": "UsbDescriptorBundle finds, concatenates and summarizes its descriptors", "statement": "The search returns the descriptor of the type before which there are exactly k of the same type. The bytes from an index are the first wLength bytes of the descriptors from there on. The compiled rom has all bytes and its table gives the place of each descriptor of a type in order. The table of endpoints has a record exactly for the endpoints with a descriptor, with the largest packet of them, a buffer for two packets and the transfer types of the descriptors; endpoint 0 comes from the descriptor of the device.", "quantifier": "every list of descriptors, every index, length and type", "why_tests_cant": "lists of descriptors are unbounded", "anchors": ["hwtLib/peripheral/usb/descriptors/bundle.py: UsbDescriptorBundle.get_descriptor, get_descr_bytes, compile_rom, get_descriptors_from_rom, get_endpoint_meta, UsbEndpointMeta"]}
{"id": "C158", "title": "Usb2DeviceCore answers every transaction of the host as USB requires", "statement": "Every IN token is answered by STALL, NAK or one data packet; every OUT or SETUP with data without an error is answered by STALL, NAK or ACK, and the data are given to the endpoint exactly if it takes them and they are not a repetition; data with an error get no answer. DATA0 and DATA1 alternate for each endpoint and direction, SETUP and bus reset restart them, and they advance only when the data are acknowledged. Tokens with an error get no answer and PING is answered by the state of the receive buffer.", "quantifier": "every sequence of transactions, pauses, resets and other packets, every set of endpoints, every timing of the endpoints and of the transmitter", "why_tests_cant": "sequences of transactions and the timing are unbounded", "anchors": ["hwtLib/peripheral/usb/usb2/device_core.py: Usb2DeviceCore.usb_endpoint_fsm, define_endpoint_states"]}
{"id": "C159", "title": "SegmentedArrayProxy behaves as one array of items stored in several memories", "statement": "After any sequence of writes and cleans an item reads as the last value written to it (0 after clean, the original value if not written), in the memories and in their values at the start of the simulation; the length is the number of the items.", "quantifier": "every number of memories, width of their items, words per item, and every sequence of operations with existing indexes and values which fit", "why_tests_cant": "sequences of writes, numbers of memories and values are unbounded", "anchors": ["hwtLib/mem/sim/segmentedArrayProxy.py: SegmentedArrayProxy"]}
{"id": "C160", "title": "parsePolyStr reads polynomials", "statement": "For a text of a polynomial (terms with a sign, an optional decimal coefficient and a power of x, with spaces around signs) the result is the list of its coefficients; repeated powers are summed.", "quantifier": "every list of terms, every spacing and every width larger than the powers", "why_tests_cant": "texts are unbounded", "anchors": ["hwtLib/logic/crcUtils.py: parsePolyStr, parsePolyStr_parse_n, parsePolyStr_parse_p"]}
{"id": "C161", "title": "Usb2DeviceCore detects resets and negotiates the speed", "statement": "usb_rst is set exactly while the line was SE0 for 2^14 cycles. After power on the device waits for SE0 of 4 ms, sends a chirp for 1 ms and then selects high speed if the host sends three pairs of chirps K and J in time and full speed otherwise. The selected speed is reported until a reset, and a reset starts the negotiation again.", "quantifier": "every sequence of line states, every clock frequency with a whole number of cycles per ms", "why_tests_cant": "sequences of line states are unbounded", "anchors": ["hwtLib/peripheral/usb/usb2/device_core.py: Usb2DeviceCore.detect_usb_rst, usb_linerate_negotiation"]}
{"id": "C162", "title": "The text dump of DebugBusMonitor shows the values of the monitored signals", "statement": "The text dumped by the control tool from the memory of a DebugBusMonitor has a line for every registered record, every member of its interface and every child record, in order and with the indent of its level, and every signal is shown with its current value, whatever is on the bus behind the data.", "quantifier": "every list of registered records and interfaces, every hierarchy of records, all values of the signals, any bus content behind the data", "why_tests_cant": "records, nested interfaces and values are unbounded", "anchors": ["hwtLib/abstract/debug_bus_monitor.py: DebugBusMonitor._build_meta_memory, build_meta_memory_json, apply_monitors/hwImpl data memory", "hwtLib/tools/debug_bus_monitor_ctl.py: DebugBusMonitorCtlDevmem.read, words_to_int, DebugBusMonitorCtl.get_data_memory_width, dump_txt, _default_txt_formatter"]}
{"id": "C163", "title": "The receiver of RmiiAdapter gives the bytes of the frames on the line", "statement": "The bytes of each Ethernet frame received from RMII (without its preamble and SFD) are given on rx in order, last is set exactly with the last byte, and a frame with a wrong preamble or SFD is given only as err, with last at its end. Each frame is received independently of what was on the line before.", "quantifier": "every sequence of frames of any length, wrong frames and quiet clocks on the line, any unknown initial value", "why_tests_cant": "lengths and sequences of frames are unbounded", "anchors": ["hwtLib/peripheral/ethernet/rmii_adapter.py: RmiiAdapter._rx_logic"]}
{"id": "C164", "title": "strb and keep of words built by the frame deparser cover all parts of the word", "statement": "The strb and keep masks of a word are the masks of its parts (padding and input streams) in order, one bit for each byte, and for a word with choices of a union the masks are those of the selected choice.", "quantifier": "every list of parts of a word, every list of union choices with their masks and any selected choice", "why_tests_cant": "lists of parts and choices are unbounded", "anchors": ["hwtLib/amba/axis_comp/frame_deparser/strb_keep_stash.py: StrbKeepStash._vec_to_signal, _push_mask_vec, pop_mask_value, reduce_conditional_StrbKeepStashes"]}
{"id": "C165", "title": "StructWriter requests all frames of a structure and acknowledges it once", "statement": "For each address accepted from set StructWriter makes one write request for each frame of the structure in order, at the address of the structure plus the offset of the frame, and gives exactly one writeAck after the datapump acknowledged all frames of the structure.", "quantifier": "every list of frames, every list of addresses, every schedule of ready and valid of all interfaces and any latency of the internal buffer", "why_tests_cant": "schedules and lists are unbounded", "anchors": ["hwtLib/structManipulators/structWriter.py: StructWriter.hwImpl (set, wDatapump.req, wDatapump.ack, writeAck)"]}
{"id": "C166", "title": "StructReader requests exactly the bytes of the frames of a structure", "statement": "For each address accepted from get StructReader makes one read request for each frame of the structure, in order, and each request means exactly the bytes of its frame: the address of the structure plus the offset of the frame, and the number of bytes up to the end of the last used part. A request is made only when both sides are ready, and rem fits to its signal.", "quantifier": "every list of frames, every list of addresses, every word width of whole bytes, every schedule of ready and valid", "why_tests_cant": "schedules and lists are unbounded", "anchors": ["hwtLib/structManipulators/structReader.py: StructReader.hwImpl (get, rDatapump.req), driveReqRem", "hwtLib/amba/datapump/intf.py: AddrSizeHs"]}
{"id": "C167", "title": "Helpers of caches write exactly the enabled bytes and extend signals to whole bytes", "statement": "A write with byte enables changes exactly the bytes which are enabled and keeps all others, and a signal of any width can be extended by zeros to the closest higher number of whole bytes.", "quantifier": "every width, every current and new value, every mask, every signal", "why_tests_cant": "widths and values are unbounded", "anchors": ["hwtLib/amba/axi_comp/cache/utils.py: expand_byte_mask_to_bit_mask, apply_write_with_mask, extend_to_width_multiple_of_8"]}
{"id": "C168", "title": "The read port of CamWithReadPort gives the key stored at each index", "statement": "After any history of writes the read port gives for each index of an item the last key written to this index, or 0 if there was none.", "quantifier": "every number of items, every history of writes, every index", "why_tests_cant": "histories are unbounded", "anchors": ["hwtLib/amba/axi_comp/cache/utils.py: CamWithReadPort.hwDeclr, hwImpl", "hwtLib/mem/cam.py: Cam.hwDeclr, writeHandler"]}
{"id": "C169", "title": "Axi4S split by select sends each frame whole to its selected output", "statement": "The n-th accepted select chooses the output of the n-th frame: all words of the frame go to this output only, in order, without loss, and the next select is used from the next frame. A word is accepted exactly when it is valid, a select is present and the selected output is ready.", "quantifier": "every number of outputs, every sequence of words and one hot selects, every schedule of valid and ready", "why_tests_cant": "frames and schedules are unbounded", "anchors": ["hwtLib/amba/axis_comp/splitSelect.py: Axi4SSpliSelect._select_consume_en", "hwtLib/handshaked/splitSelect.py: HsSplitSelect.hwImpl"]}
{"id": "C170", "title": "Axi4SFifoDrop sends exactly the frames which were not discarded", "statement": "dataOut of Axi4SFifoDrop has exactly the words of finished frames which were not discarded, in order; a valid word is accepted whenever the memory is not full and a kept word is offered on dataOut at latest in the next clock, for every discard.", "quantifier": "every DEPTH above 0, every sequence of words and discards, every schedule of valid and ready", "why_tests_cant": "frames, discards and schedules are unbounded", "anchors": ["hwtLib/amba/axis_comp/fifoDrop.py: Axi4SFifoDrop._connect_fifo_in", "hwtLib/handshaked/fifo.py: HandshakedFifo._connect_fifo_out", "hwtLib/mem/fifoDrop.py: FifoDrop"]}
