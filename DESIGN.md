# Formal model of Nic30/hwtLib in Rocq (Coq 8.16.1)

## 1. What is modelled and how

hwtLib is a library of hardware components written in a Python eDSL (hwt).
A component is elaborated (Python runs once, with parameters fixed) into a
netlist of registers, memories and combinational logic.  The model is a shallow
embedding, component by component:

* **Elaboration-time Python** (address allocation, XOR-matrix construction, timer
  sharing, frame alignment, ...) is modelled as ordinary total Gallina functions;
  Python exceptions / failed `assert`s become `None`/`inl err`.
* **Netlists** are modelled as clocked machines `step : state -> input -> state * output`
  (`Base.run`).  One `step` is one rising clock edge; the output is what is
  visible on the pins during that cycle.  Parameters (DEPTH, number of ports, ...)
  stay universally quantified arguments.
* **Registers** with a `def_val` start at it (the machine starts right after reset);
  registers and memories without `def_val` start with arbitrary, universally quantified
  content.  This models the unknown (X) value and also covers a reset in
  the middle of operation (memories keep arbitrary old content).
* **Data** which a component only moves is an abstract type `A`.  Data it computes on
  is `N`/`nat`/`list bool`, with the wrap (`mod 2^w`) explicit where the register wraps.
* **Two clocks**: a history is a list of edges of either clock in any order, including
  simultaneous ones.  A value sampled from the other domain is the value before the edge.
  Metastability is modelled by nondeterminism where the theorem says so.

File layout in `rocq/theories`: `XModel.v` (definitions with file/line citations, no proofs),
`XSpec.v`/shared `StreamSpec.v` (small independent specifications), `XProofs.v` (lemmas),
`XProps.v` (only the property theorems, closed by `exact`, each with `Print Assumptions`,
and the non-vacuity `Example`s).

Naming: `..._refuted` = the property as documented/expected is false of the code and
the theorem exhibits a witness; `..._partial` = a guarded or weaker form of the property.

## 2. Trusted base

* Coq 8.16.1 kernel (including `vm_compute`), coqc/coq_makefile.
* `Print Assumptions` of every property theorem: "Closed under the global context" unless
  listed in section 4.  No axioms are added.
* The reading of hwt semantics, because the hwt package (the eDSL) is not part of /repo and
  not installed:
  - `self._reg(name, t, def_val)` is a register clocked by the component's clock, reset
    (synchronously) to `def_val`; a register not assigned in a branch keeps its value;
    the last assignment/branch priority of `If/Elif/Else`, `Switch` is as in the Python text;
  - reading a register gives the value before the edge, `reg.next` the value after;
  - `HBits(w)` arithmetic wraps modulo 2^w; `Concat` is MSB first; `x[hi:lo]` takes bits hi-1..lo;
    `x[n:]` takes the n low bits, `x[:n]` the bits from n up;
  - a memory `If(clk._onRisingEdge(), mem[a](d))` is written at the edge, reads in the same
    edge see the old content;
  - `hwt.math.log2ceil(x)` is 1 for x in {0,1}, else ceil(log2 x);
  - `rd`/`vld` of a StreamNode or a handshaked interface transfer a word in exactly the cycles in which both are high.
* Not modelled: VHDL/Verilog code generation, simulation agents, physical constraints
  (`set_max_delay`), metastability except as stated, X-propagation of unknown control inputs.

## 3. Plan per property

| id | model | proof idea |
|----|-------|------------|
| C01-C03 | FifoModel: `fifo_pointers` + memory + size/space | invariant relating (wptr,rptr,looped,mem) to a list; induction over history; C02/C03 expected false at a boundary: witness by vm_compute |
| C04,C05 | HandshakedFifo = wiring around FifoModel + `out_vld` register | refinement to a bounded queue; drain by induction on stored words |
| C06,C07 | HsRegModel: one stage as machine; chain = composition of n stages | composition lemma for queues; induction on LATENCY |
| C08,C09 | StreamNodeModel: lists of channels, `sync`/`ack` as boolean functions | forallb reasoning; C09 witness |
| C10-C16 | JoinSplitModel: combinational functions on vectors + priority register | prefix/rotation arguments on lists; fairness by induction on rotation distance; C11, C15 witnesses |
| C17,C18 | HsResizerModel | invariant: collected parts = accepted words modulo SCALE; witness for loss |
| C19 | FifoDropModel | abstraction (committed, pending) lists |
| C20 | FifoAsyncModel: two-clock machine with gray synchronisers | invariant over unbounded pointers: synchronised copies lag, distance <= DEPTH |
| C21-C24 | GrayModel, OneHotModel, CountLeadingModel, BitonicModel | bit-level induction; 0-1 principle-free direct bitonic proof |
| C25,C26 | CrcModel: symbolic XOR matrix builder vs bit-serial register | linearity: matrix rows evaluated = register bits, induction over data bits |
| C27,C28 | BcdModel (FSM + shift/adjust) | double-dabble invariant: digits*2^k + remaining bits |
| C29 | LfsrModel | linear algebra over bool lists: shift is injective when top tap set |
| C30 | RamRdVldModel | invariant pending/data/overflow never all set; refinement to queue of read values |
| C31 | HsCdcModel: two-clock machine | witness for duplication/corruption under back-pressure; positive theorem for an always-ready consumer |
| C32-C34 | CamModel, RamModel, RamXorModel | refinement to last-write map |
| C35-C37 | InterconnectModel | sortedness/disjointness invariants, DFS closure invariant |
| C38,C39 | RemapModel, AddrStepModel | arithmetic on aligned blocks; witness |
| C40 | SimRamModel | max-key allocation invariant; bit extraction lemma; witness |
| C41,C42 | TimersModel | each counter = function of number of enabled cycles; induction over the sharing forest |
| C43 | ToAxisModel | counter modulo invariant |
| C44 | FrameAlignModel | list algebra over chunks |
| C45 | JoinSplitModel | witness for starvation under a slow consumer; guarded fairness |
| C46,C47 | TimerModel: oversample, edgeDetector, reg_path | counter = number of ones among the samples; register chain = shifted history |
| C48 | AlignModel: next_frame_offsets | arithmetic on offsets modulo the word size |
| C49 | FifoCopyModel, Axi4SFifoCopy, Axi4SRegCopy | unbounded pointers, refinement to (sent, stored) lists; witnesses |
| C50 | FifoArrayModel | representation: a forest of disjoint chains in the node memory |
| C51 | AxisResizerModel | law over the trace: collected / remaining bytes |
| C52-C54 | AxisMiscModel | frame ownership invariant; index = number of sent words; witnesses |
| C55 | UartModel: UartTx with the shared timers of C41 | refinement to (byte, cycles since taken) |
| C56 | UartModel: UartRx | invariant (bit, sample, cycle) of the frame and majority lemma |
| C57 | loopback of both | list algebra: blocks of the transmitter = frames of the receiver; witness for wrong byte |
| C58 | ReorderBuffer with its RAM and input/output registers | invariant: which words of the sequence are in the memory, run induction; bounded liveness from the invariant |
| C59 | MultiplierBooth, vectors as Z | invariant A*2^n + Qhigh = M * (low i bits of the multiplier) * 2^(n-i), no overflow lemma, run induction; witness for the minimum |
| C60 | full adder and both wirings of the chain | induction on the width; witness for RippleAdder0 |
| C61 | PidController over Z modulo 2^n | run induction; witness for the sign of the error |
| C62 | PseudoLru expression builders over lists of bits | index lemmas over the tree recursion with fuel; case analysis for the two sizes which elaborate |
| C63 | FifoOutOfOrderRead: pointers, valid and lock flags | invariant relating the flags to the numbered items, law over the trace with an obedient environment |
| C64 | VldSyncedCdc as two-clock event machine | invariant over the last three words; witnesses for equal and faster clocks |
| C65 | Axi4SlaveTimeout, read and write channels | induction over the counter; witnesses for the spurious and the lost response |
| C66 | Axi_to_AxiLite core with its HandshakedFifo | invariant: pending beats and tags of the stored requests; progress in two cycles |
| C67 | Mi32_to_Axi4Lite | induction over the trace; witness for the repeated read |
| C68 | Axi4Lite_to_Mi32, both priorities | simulation of the open transaction; witnesses for lost, overwritten and dropped transactions; dead state for all continuations |
| C69 | Mi32SlidingWindow, Mi32Buff | law over the trace with the last offset; queue invariant; shift register |
| C70 | Mi32InterconnectMatrix with its HandshakedFifo | chip select by range arithmetic; invariant: FIFO content is the read of the previous cycle; witness for latency two |
| C71 | RStrictOrderInterconnect composed with join, one-hot encoder and FIFO | invariant: FIFO content = owners of the open requests; the data is assigned to owners by a function of the specification |
| C72 | WStrictOrderInterconnect with both order FIFOs | two FIFO invariants as segments of the list of owners |
| C73 | AxiDatapumpBase.addrHandler, all configurations | invariant: bursts so far are served groups of the taken requests and a part of the offered one; four witnesses |
| C74 | Axi_rDatapump (ALIGNAS = DATA_WIDTH) with address handler and HandshakedFifo | FIFO content = notes of the bursts not answered yet; the answers index the bursts by the number of lasts before |
| C75 | Axi_wDatapump, all alignments, with address handler and both HandshakedFifos | the plan of the frames (words, lasts, infos) is fixed by the requests; invariant: done frames and a position in the current one determine all registers; two witnesses |
| C76 | FlipRegister, FlipCntr, FlipRam (one port pair) | laws over the trace by induction, content of each half = fold of the writes to it; witness for a read before a flip |
| C77 | RamCumulativeMask with all read ports | invariant: memory = fold of accepted writes, preload -> the write is pending and dout holds its old mask; witness for a read in the second cycle |
| C78 | HashTableCoreWithRam with the RAM connector and buffers, packing of the record in N | lookups on the way = registers of the RAM connector and of the buffers, they advance together; case analysis of one cycle |
| C79 | CuckooHashTable with abstract tables in lock step (law of C78), the stash and the FSM | the map is spread over the slots: each key in at most one slot of its own; invariant per FSM state with the item on the way in the stash; progress by a decreasing measure |
| C80 | AxiLiteEndpoint over the words, parts and memories of its address space | refinement of one write and one read at once over a map; two refutations (answer not taken at once, write after a memory read) |
| C81 | Mi32Endpoint, the same address space | law of the next cycle over a map, by an invariant |
| C82 | BramPortEndpoint, the same address space | law of the next cycle over a map, by an invariant |
| C83 | AvalonMmEndpoint, the same address space | law of the next cycle over a map, by an invariant |
| C84 | IpifEndpoint, the same address space; the master keeps its request | law of the next cycle over a map, by an invariant |
| C85 | Axi4S_fifoMeasuring: counters, HandshakedFifo for data and sizes | invariant over both queues; refutation for one byte words |
| C86 | ArrayItemGetter with its HandshakedFifo over a memory of bytes | queue of outstanding indexes; arithmetic of the slices; refutation for items of one byte |
| C87 | MMU_2pageLvl composed of the models of RamAsAddrDataRdVld, ArrayItemGetter and two HandshakedFifos | three queues are pieces of the list of accepted addresses; decreasing measure for progress; refutation of holding |
| C88 | AxiInterconnectMatrixR: buffers of addresses, decoders, one round-robin arbiter per slave, order FIFOs (model of HandshakedFifo), data crossbar | ghost list of requests; invariant: every order FIFO is the projection of the unfinished requests; progress: the oldest unfinished request is at the front of both its FIFOs; fairness: the priority reaches each master in NM cycles |
| C89 | AxiInterconnectMatrixW: as C88 with the data crossbar from masters to slaves, the response crossbar and the optional registers | as C88 with two ghost lists of the same requests |
| C90 | the address channels of C88 and C89 | an accepted-nothing step keeps buffers and FIFOs ready; refutation of the payload |
| C91 | grouping, numbering and region lists of AxiInterconnectMatrix, sets iterated by an arbitrary function | groups are closed under sharing; position in the sorted list is the number; three refutations |
| C92 | ArrayBuff_writer: buffer FIFO, size FIFO, timeout counter, state of the transfer, address and uploaded counters | invariant: every item is in memory, in an open request or in the buffer; rank for progress; three refutations |
| C93 | CLinkedListReader: buffer FIFO, pending flag, base index, rest of the block, pointers; the datapump as a queue of words which are due | invariant relating position in the list to the base index and the due words; rank for progress; two refutations |
| C94 | CLinkedListWriter: both state machines, buffer, pointers, timeout, block counter | invariant over asked, sent and acknowledged words; refinement of the first block; four refutations, two of them with a proof that the component is stuck for every continuation |
| C95 | FpModel.v: the parser of a structure (list of fields), its word counter, registers of parts and flags of consumed fields | invariant: counter is the place of the next word in its frame, registers hold the parts of the current frame, values taken are those of all accepted ends plus the offered one if flagged; slices of concatenated words |
| C96 | the same with OVERFLOW_SUPPORT / UNDERFLOW_SUPPORT | the same invariant with places given by the marks of last words; refutations by runs |
| C97 | FdModel.v: word counter, handshakes of the fields of a word, data and strobe of words | invariant: counter is the number of sent words modulo the size, number of taken values of each field is given by the number of sent words; bits of words by the field which covers them; refutation by a run |
| C98 | FpModel.v and FdModel.v | corollary of C95 and C97 |
| C99 | FgModel.v: both registers and the counter, register writes are inputs | induction over cycles with the rest of the current frame |
| C100 | MdioModel.v: the whole master with its prescaler (timers of C41) | invariant indexed by the number of falling edges and the level of the clock; ticks by C41 |
| C101 | SpiModel.v: the master with its timers (C41), the loop of initWaitDone as a relation | invariant over the value of the word counter; induction over the words |
| C102 | FsModel.v: the whole component, registers as a list | abstraction of the registers to a stream of words with ghost future input; invariant good over registers; induction over words of frames |
| C103 | FsModel.v | the simulation of C102 gives the same word in both cycles |
| C104 | TagModel.v: the component over RamModel.v, bit level packing of tag records | invariant: memory encodes the directory; dout of a port is the memory before the last update; induction over cycles |
| C105 | TagModel.v | the invariant of C104 |
| C106 | S2mModel.v: registers, FSM, aw and w; AxiLiteEndpoint is not part of it | invariant: what remains of the started transfers, per state; induction over cycles |
| C107 | S2mModel.v: control_din | bits of a product with a power of two |
| C108 | S2mModel.v, S2mSpec.v: transfer | divisibility |
| C109 | I2cModel.v: FSM, lines, filters, counters, arbitration | simulation by a machine without filters; invariant per state |
| C110 | I2cModel.v | simulation by a machine which sees the commands only |
| C111 | I2cModel.v: detectStartAndStop; I2cSpec.v: samples, clean | invariant of filters over histories |
| C112 | I2cModel.v: arbitrationLostDriver | invariant of filters over histories |
| C113 | I2cModel.v: filter; I2cSpec.v: samples, majority | two low samples of three are closer than two periods, so in one pulse |
| C114 | LlinkModel.v: both converters and their composition | induction over cycles; strb and rem are inverse |
| C115 | LlinkModel.v | induction over cycles |
| C116 | RszModel.v: register, align_fifo and both stream nodes of each direction | invariant of the address path (HandshakedReg, HandshakedFifo), lemmas about lanes of words |
| C117 | RszModel.v | invariant and two steps |
| C118 | SlrModel.v: all registers and the shift registers | refinement to a list of places; the read address counts the zeros of the three enable registers |
| C119 | SlrModel.v | the list of places loses its head in each cycle |
| C120 | IpifModel.v: all registers and the state machine | invariant: state of the machine = open part of the transaction |
| C121 | IpifModel.v | invariant and case analysis of two (three) cycles |
| C122 | IpbModel.v: all registers | invariant with the obligation of the master |
| C123 | AvmModel.v: all registers, both fifos (HandshakedFifo of FifoModel.v), priorities | invariant: capacity = depth - words not yet delivered; the size of a read reaches the counter before its first word leaves the fifo |
| C124 | AvmModel.v | invariant of addr_tmp |
| C125 | AvmModel.v | invariant of addr_tmp: open write and its remaining words |
| C126 | AmbModel.v: the register or fifo made by _mk_buff for each of three buffers, gating of read and write by valid | refinement of the register and of the fifo to a queue |
| C127 | AmbModel.v | the buffer is never full since the master always takes the answers; the fifo is a delay of two cycles |
| C128 | AvxModel.v: the input buffer (AmbModel.v), StreamNode with its conditions, w_last_cntr. prot, qos, cache, size and id are constants and not modelled | invariant: words missing in the open burst = w_last_cntr + 1; at most one request inside |
| C129 | AvxModel.v | induction over the stalled run |
| C130 | AvxModel.v | delay of one cycle of the register buffers |
| C131 | BufModel.v: selection between wire, HandshakedReg and HandshakedFifo | refinement of each variant to a queue |
| C132 | BufModel.v: five buffers of C131 | projection of the run to a channel |
| C133 | BufModel.v: buffer of C131 with gating of rd and wr by valid, row of registers of answers | as C131; shift register |
| C134 | UlpModel.v: all registers and the state machine of the bridge | induction over the run |
| C135 | UlpModel.v; UlpSpec.v: observer which stands for the PHY, observer of utmi.tx | invariant between the state of the bridge and both observers |
| C136 | UlpModel.v; content of the registers of the PHY computed from the writes which it took | invariant: no pending update implies equal content |
| C137 | UlpModel.v | case analysis of reachable states |
| C138 | UlpModel.v: parse_RX_CMD | case analysis of the fields of the byte |
| C139 | WdModel.v: a_tmp, pop_offset, read_pending, read_data, read_data_backup | invariants: words in the two registers; part of the item which was read |
| C140 | WdModel.v | induction over the run |
| C141 | AsrModel.v over the dictionary of SimRamModel.v; bits which are known or not | induction over words and bytes |
| C142 | AsrModel.v | invariant of checkRequests |
| C143 | AsrModel.v | bits of shifts |
| C144 | RtrModel.v: r_index, w_index, r_meta, the registers of RamAsAddrDataRdVld and the memory; strobes as a function on the stored word | queue of words and metadata under way; atomic specification from accepted transactions |
| C145 | RtrModel.v | invariant of w_index against accepted words; queue of words under way |
| C146 | AseqModel.v: word_index, state, slices of the constant and both StreamNodes | invariant of word_index and state against the words of the unfinished frame; arithmetic of slices |
| C147 | LruaModel.v: victim_req_tmp, incr_tmp, merging of ports and RamXorModel.v; PseudoLru as two functions of a record | history of memory ports is disciplined, theorem C34 gives what is read; induction over the history |
| C148 | LruaModel.v | counting of handshakes by induction over the schedule |
| C149 | UsieModel.v: both items of rx_tmp and the condition of vld; parsers behind it are not modelled | induction over the schedule with the item which is not followed yet |
| C150 | UsieModel.v: last_delayed and the StreamNode | induction over the schedule with the unfinished packet and frame |
| C151 | SfModel.v: string_rom, translation tables, char_i, main_st, selection of digits, bin_to_bcd from BcdModel.v | invariant: printed words against the text, item and character; invariant of BinToBcd from C27 |
| C152 | SfpModel.v: splitting to tokens, the loop over tokens, body of a group | induction over the groups |
| C153 | HexModel.v: err_pending and valid of the raise interface | induction over the history |
| C154 | HdModel.v: the FSM of newlines, row, col and the latches of the undriven signals | invariant over the history |
| C155 | IpimModel.v: chip selects, or of the acknowledges, mux of data | chip select is equal to the range of the slave, disjoint ranges |
| C156 | EpbModel.v: stream nodes between the endpoints, Axi4SFifoCopy, HandshakedFifo of the packet marks and the core (only the part to the host) | invariant: contents of both FIFOs per endpoint, number of marks is the number of whole packets which wait |
| C157 | UdbModel.v: all methods on descriptors as type number, bytes and the fields which are read | inductions over the list; invariant: the table is the wanted one for the descriptors seen so far |
| C158 | UefModel.v: the state machine with the data bits; receiver and transmitter are inputs | refinement: each transaction leads from idle to idle with the events and data bits of the specification; induction over the transactions |
| C159 | SapModel.v: memories as functions, all methods | a value is the sum of its parts (induction over the parts), words of an item are disjoint from the words of another; induction over the operations |
| C160 | PpsModel.v: regular expressions on classes of characters, findall, dictionary | each term of the text is one match (lemmas about greedy matching), induction over the terms; dictionary as a sum |
| C161 | UngModel.v: both machines connected, line state is the input; times in whole cycles | a lemma for each phase by induction over its cycles; invariant that the counter is the run of SE0 |
| C162 | DbmModel.v: layout of the memory and its description, size known by the tool, reading of words and the text formatter; names are numbers, the description is not encoded to JSON | mutual induction over the interface and over the hierarchy; the data read are a prefix of the memory |
| C163 | RmrModel.v: the receiver with its input register, one clock domain, 2 bits of data | a lemma for each state and byte, induction over bytes, preamble and the sequence on the line |
| C164 | SksModel.v: masks as lists of bits, signals by their values, dictionary as an association list | induction over parts with the pending padding; the enabled keys of the dictionary are the enabled masks |
| C165 | StwModel.v: request and acknowledge logic with a queue of flags; the data channel is not modelled | invariants over the history: requests are a prefix, the queue holds flags of requests without acknowledge |
| C166 | StrModel.v: request logic with READ_ACK True (no buffer on get); word count is computed from the start and end of the frame; data channel is not modelled | invariant over the history: requests are a prefix; division lemmas for len and rem |
| C167 | CutModel.v: signals as lists of bits; negative width is an exception | induction over the mask; division lemma for the computed width |
| C168 | CutModel.v: memory with write and read port and addresses of pins; lookup is not part of it | induction over the history |
| C169 | AssModel.v: split with the register of the select; a select without set bit has ready 0 instead of undefined | invariant over the history: remaining selects of the routing are the content of the register |
| C170 | AfdModel.v: wrapper over FifoDropModel.v with the output register | projection of the history to the fifo inside and C19; invariant of the locked state |

Properties added later are appended to `properties.jsonl` and to this table.

## 4. Assumptions of the theorems

Every property theorem prints "Closed under the global context".  The checker also lists seven constants of
`Coq.ssr.ssrunder.Under_rel` (`Over_rel`, `Under_rel_from_rel`, `over_rel`, `over_rel_done`, `Under_rel`, `Under_relE`,
`under_rel_done`); they belong to the opaque module of the standard library which `Zify`/`ssr` loads, and no theorem uses them.

### Log of seeded bugs

`seeded/LOG.jsonl` has one line for each edit of the model.  How to read it:

- `failed_theorems` lists the theorems of each Props file which no longer builds after the edit.  This is found by a rebuild only.
  If a shared lemma breaks, all theorems of the file are listed, also those whose statement is still true of the edited model.
  A theorem in this list is therefore not shown to be false of the edited program, only its proof did not pass.
- `failed_lemmas` names the first place where the proof stopped.
- A line with an empty `failed_theorems` is an edit which no theorem notices.  Its claim or note says if the edit is equivalent,
  if it is outside of the guard of the theorems, or which theorem was tightened.

## 5. Modelled and not modelled

The header of each `XModel.v` names the files and line ranges it covers; simplifications are in the comment of the definition.
Not modelled at all: code generation, `sim` agents, `xilinx` primitives, tests, and the components which have no property yet.
Inside of modelled files: `ExclusiveStreamGroups` nested in a `StreamNode`, the HAS_BE path of `RamAsAddrDataRdVld`,
`keep` of `Axi4S_resizer`, the shift path of `Axi_rDatapump` (ALIGNAS < DATA_WIDTH).

<!-- scope -->

Files (below `hwtLib/`) which each model covers; the definitions cite the lines.

| model | files of /repo |
|---|---|
| AddrModel.v | abstract/busStaticRemap.py, abstract/addressStepTranslation.py |
| AfdModel.v | amba/axis_comp/fifoDrop.py, handshaked/fifo.py, mem/fifoDrop.py |
| AlignModel.v | abstract/frame_utils/alignment_utils.py, abstract/frame_utils/byte_src_info.py |
| AmbModel.v | avalon/mm_buff.py, handshaked/fifo.py |
| ArithModel.v | logic/pid.py |
| ArrwModel.v | structManipulators/arrayBuff_writer.py, amba/datapump/intf.py |
| AseqModel.v | peripheral/ethernet/_axis_eq.py |
| AsrModel.v | amba/axi_comp/sim/ram.py, amba/datapump/sim_ram.py |
| AssModel.v | amba/axis_comp/splitSelect.py, handshaked/splitSelect.py |
| AvmModel.v | avalon/axiToMm.py |
| AvxModel.v | avalon/mmToAxi.py, avalon/mm.py, avalon/mm_buff.py, amba/constants.py, handshaked/streamNode.py |
| AxisMiscModel.v | amba/axis_comp/en.py, amba/axis_comp/joinPrioritized.py, handshaked/storedBurst.py, amba/axis_comp/storedBurst.py |
| AxisResizerModel.v | amba/axis_comp/resizer.py |
| BcdModel.v | logic/binToBcd.py, logic/bcdToBin.py |
| BitonicModel.v | logic/bitonicSorter.py |
| BoothModel.v | - |
| BufModel.v | abstract/streamBuilder.py, amba/axi_comp/buff.py, cesnet/mi32/buff.py |
| CamModel.v | mem/cam.py |
| CdcModel.v | handshaked/cdc.py, clocking/cdc.py, clocking/vldSynced_cdc.py |
| CountLeadingModel.v | logic/countLeading.py |
| CrcModel.v | logic/crcComb.py, logic/crc.py |
| CuckooModel.v | mem/cuckooHashTable.py, mem/hashTableCore.py |
| CumMaskModel.v | mem/ramCumulativeMask.py, mem/ram.py |
| CutModel.v | amba/axi_comp/cache/utils.py, mem/cam.py |
| DbmModel.v | abstract/debug_bus_monitor.py, tools/debug_bus_monitor_ctl.py |
| DpModel.v | amba/datapump/base.py, amba/datapump/r.py, amba/datapump/w.py, amba/datapump/intf.py |
| DpRModel.v | amba/datapump/r.py |
| DpWModel.v | amba/datapump/w.py, amba/datapump/base.py |
| EpModel.v | abstract/busEndpoint.py, amba/axiLite_comp/endpoint.py, cesnet/mi32/endpoint.py, mem/bramPortEndpoint.py, avalon/endpoint.py, xilinx/ipif/endpoint.py, abstract/addressStepTranslation.py |
| EpbModel.v | peripheral/usb/usb2/device_ep_buffers.py |
| FdModel.v | abstract/template_configured.py, amba/axis_comp/frame_deparser/_deparser.py |
| FgModel.v | amba/axis_comp/frameGen.py |
| FifoArrayModel.v | mem/fifoArray.py |
| FifoAsyncModel.v | mem/fifoAsync.py |
| FifoCopyModel.v | mem/fifoCopy.py, amba/axis_comp/fifoCopy.py, handshaked/fifo.py |
| FifoDropModel.v | mem/fifoDrop.py |
| FifoModel.v | mem/fifo.py, handshaked/fifo.py |
| FifoOooModel.v | amba/axi_comp/lsu/fifo_oooread.py, mem/fifo.py |
| FlipModel.v | mem/atomic/flipReg.py, mem/atomic/flipCntr.py, mem/atomic/flipRam.py |
| FpModel.v | amba/axis_comp/frame_parser/_parser.py, abstract/template_configured.py, amba/axis_comp/frame_parser/field_connector.py, amba/axis_comp/frame_parser/out_containers.py, amba/axis_comp/frame_parser/word_factory.py |
| FsModel.v | amba/axis_comp/frame_parser/footer_split.py |
| GrayModel.v | logic/cntrGray.py |
| HashModel.v | mem/hashTableCoreWithRam.py, mem/hashTableCore.py |
| HdModel.v | peripheral/displays/hd44780/driver.py, peripheral/displays/hd44780/intf.py |
| HexModel.v | abstract/hwExceptionCtx.py |
| HsRegModel.v | handshaked/reg.py |
| I2cModel.v | peripheral/i2c/masterBitCntrl.py |
| InterconnectModel.v | abstract/busInterconnect.py |
| IpbModel.v | xilinx/ipif/buff.py |
| IpifModel.v | xilinx/ipif/axi4Lite_to_ipif.py, amba/constants.py |
| IpimModel.v | xilinx/ipif/interconnectMatrix.py |
| JoinSplitModel.v | handshaked/joinFair.py, handshaked/splitFair.py, handshaked/splitPrioritized.py |
| LfsrModel.v | logic/lfsr.py |
| LlinkModel.v | xilinx/locallink/axis_conv.py, xilinx/locallink/hIOLocallink.py |
| LlrModel.v | structManipulators/cLinkedListReader.py, amba/datapump/intf.py |
| LlwModel.v | structManipulators/cLinkedListWriter.py, amba/datapump/intf.py |
| LruaModel.v | amba/axi_comp/cache/lru_array.py, logic/binToOneHot.py, amba/axi_comp/cache/pseudo_lru.py |
| MatrixModel.v | amba/axi_comp/interconnect/matrix.py, abstract/busInterconnect.py |
| MdioModel.v | peripheral/mdio/master.py, peripheral/mdio/intf.py |
| MeasModel.v | amba/axis_comp/fifoMeasuring.py, handshaked/fifo.py |
| Mi32IcModel.v | cesnet/mi32/interconnectMatrix.py |
| Mi32Model.v | cesnet/mi32/to_axi4Lite.py, cesnet/mi32/axi4Lite_to_mi32.py, cesnet/mi32/sliding_window.py |
| MmuModel.v | structManipulators/arrayItemGetter.py, structManipulators/mmu_2pageLvl.py |
| OneHotModel.v | logic/binToOneHot.py, logic/oneHotToBin.py |
| PlruModel.v | amba/axi_comp/cache/pseudo_lru.py |
| PpsModel.v | logic/crcUtils.py |
| RamModel.v | mem/ram.py, handshaked/ramAsAddrDataRdVld.py |
| RamXorModel.v | mem/ramXor.py, mem/ram.py |
| ReorderModel.v | amba/axi_comp/oooOp/reorder_buffer.py, handshaked/ramAsAddrDataRdVld.py |
| ResizerModel.v | handshaked/resizer.py |
| RmrModel.v | peripheral/ethernet/rmii_adapter.py, peripheral/ethernet/constants.py |
| RszModel.v | amba/axi_comp/resize.py, abstract/streamBuilder.py |
| RtrModel.v | mem/ramTransactional.py, mem/ram.py, handshaked/ramAsAddrDataRdVld.py |
| S2mModel.v | amba/axi_comp/stream_to_mem.py |
| SapModel.v | mem/sim/segmentedArrayProxy.py, tools/debug_bus_monitor_ctl.py |
| SfModel.v | amba/axis_comp/strformat.py |
| SfpModel.v | amba/axis_comp/strformat_fn.py, amba/axis_comp/strformat.py |
| SimRamModel.v | abstract/sim_ram.py |
| SksModel.v | amba/axis_comp/frame_deparser/strb_keep_stash.py |
| SlrModel.v | xilinx/slr_crossing.py, xilinx/primitive/lutAsShiftReg.py |
| SpiModel.v | peripheral/spi/master.py |
| StrModel.v | structManipulators/structReader.py, amba/datapump/intf.py |
| StreamNodeModel.v | handshaked/streamNode.py |
| StrictModel.v | amba/datapump/interconnect/rStricOrder.py, amba/datapump/interconnect/wStrictOrder.py, amba/axi_comp/interconnect/base.py |
| StwModel.v | structManipulators/structWriter.py |
| TagModel.v | amba/axi_comp/cache/tag_array.py, amba/axi_comp/cache/addrTypeConfig.py |
| TimeoutModel.v | amba/axi_comp/slave_timeout.py |
| TimerModel.v | clocking/timers.py, clocking/clkBuilder.py |
| ToAxisModel.v | handshaked/dataRdVldToAxi4Stream.py |
| ToLiteModel.v | amba/axi_comp/to_axiLite.py |
| UartModel.v | peripheral/uart/tx.py, peripheral/uart/rx.py, clocking/clkBuilder.py |
| UdbModel.v | peripheral/usb/descriptors/bundle.py, peripheral/usb/descriptors/std.py |
| UefModel.v | peripheral/usb/usb2/device_core.py |
| UlpModel.v | peripheral/usb/usb2/utmi_to_ulpi.py, peripheral/usb/usb2/utmi.py, peripheral/usb/usb2/ulpi.py |
| UngModel.v | peripheral/usb/usb2/device_core.py |
| UsieModel.v | peripheral/usb/usb2/sie_rx.py, peripheral/usb/usb2/sie_tx.py |
| VldCdcModel.v | clocking/vldSynced_cdc.py, clocking/cdc.py |
| WdModel.v | amba/axi_comp/lsu/write_aggregator_write_dispatcher.py |
| XbarModel.v | amba/axi_comp/interconnect/matrixAddrCrossbar.py, amba/axi_comp/interconnect/matrixCrossbar.py, amba/axi_comp/interconnect/matrixR.py, amba/axi_comp/interconnect/matrixW.py |

Files with nothing modelled (tests and examples left out):

- `abstract`: busBridge, componentBuilder, discoverAddressSpace, emptyHwModule, hwIOMonitor
- `abstract/frame_utils/join`: fsm, input_reg_val, state_trans_info, state_trans_item, state_trans_table, test
- `amba`: ace, aceLite, axi3, axi3Lite, axi4, axi4Lite, axi4s, axi4s_fullduplex, axi_common
- `amba/axiLite_comp`: axi4Lite_withId, to_axi
- `amba/axiLite_comp/sim`: memSpaceMaster, ram, utils
- `amba/axi_comp`: buff_cdc, builder, static_remap, tester, virtualDma
- `amba/axi_comp/cache`: cacheWriteAllocWawOnlyWritePropagating
- `amba/axi_comp/interconnect`: common
- `amba/axi_comp/lsu`: hIOs, read_aggregator, store_queue_write_propagating, write_aggregator
- `amba/axi_comp/oooOp`: outOfOrderCummulativeOp, utils
- `amba/axis_comp`: base, builder, cdc, fifo, fifo_async, reg, splitCopy
- `amba/axis_comp/frame_deparser`: test, test_types, utils
- `amba/axis_comp/frame_join`: _join, input_reg, test
- `amba/axis_comp/frame_parser`: test, test_types
- `amba/datapump`: test, utils
- `amba/sim`: agentCommon
- `avalon`: builder, st
- `avalon/sim`: memSpaceMaster, ram
- `cesnet/mi32`: builder, intf, mi32SimMemSpaceMaster, sim_ram
- `commonHwIO`: addr, addr_data, addr_data_bidir, addr_data_to_Axi, data_mask_last_hs, index_key_hs
- `handshaked`: builder, compBase, fifoAsync, fifoDrop, hwIOBiDirectional, joinPrioritized, splitCopy
- `logic`: crcPoly, crc_test_utils, rtlSignalBuilder
- `mem`: bramPortSimMemSpaceMaster, cuckooHashTablWithRam, cuckooHashTable_intf, hashTable_intf, lutRam, ramTransactional_io
- `mem/extern`: migUserPort
- `peripheral/displays`: segment7
- `peripheral/ethernet`: gmii, mac, mii, rgmii, rmii, rmii_agent, vldsynced_data_err_last, xgmii
- `peripheral/i2c`: intf
- `peripheral/spi`: intf
- `peripheral/uart`: intf
- `peripheral/usb`: constants, device_request
- `peripheral/usb/descriptors`: cdc, cdc_ncm, hid
- `peripheral/usb/sim`: agent_base, usb_agent_device, usb_agent_host
- `peripheral/usb/sim/usbip`: connection, constants, device, server, session_recorder, test
- `peripheral/usb/usb2`: device_cdc_vcp, device_common, device_core_interfaces, sie_interfaces, ulpi_agent, ulpi_usb_agent, utmi_agent, utmi_usb_agent
- `sim`: abstractMemSpaceMaster
- `types`: ctypes
- `types/net`: arp, dpdk, ethernet, icmp, ip, tcp, udp
- `xilinx`: constants, platform
- `xilinx/ipif`: hIOIpif, simMaster
- `xilinx/primitive`: dsp48e1, dsp48e1_constants, mmcme2
- `xilinx/primitive/examples`: dsp48e1Add
