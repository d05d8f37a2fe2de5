{
 "claims": [
  {
   "property": "C01",
   "status": "proved",
   "theorems": [
    "C01_fifo_is_queue"
   ],
   "note": ""
  },
  {
   "property": "C02",
   "status": "partial",
   "theorems": [
    "C02_impatient_writer_refuted"
   ],
   "note": "False of the code as it is: with dataIn.en held while dataIn.wait is high, fifo_pointers updates looped although nothing is written, and an already read word is delivered again. C01 is the guarded version."
  },
  {
   "property": "C03",
   "status": "partial",
   "theorems": [
    "C03_init_data_partial",
    "C03_full_init_data_refuted",
    "C03_hs_full_init_data_refuted",
    "C03_hs_init_data_partial"
   ],
   "note": "Proved while INIT_DATA leaves at least one free cell (or the memory has one cell). False for len(INIT_DATA)=DEPTH (Fifo) / DEPTH-1.. (HandshakedFifo): write_ptr starts at DEPTH-1 instead of 0 and the writer overwrites INIT_DATA."
  },
  {
   "property": "C04",
   "status": "proved",
   "theorems": [
    "C04_hs_fifo_is_queue",
    "C04_hs_fifo_ready_and_counts"
   ],
   "note": ""
  },
  {
   "property": "C05",
   "status": "proved",
   "theorems": [
    "C05_hs_fifo_drains"
   ],
   "note": ""
  },
  {
   "property": "C06",
   "status": "proved",
   "theorems": [
    "C06_hs_reg_is_queue",
    "C06_hs_reg_latency",
    "C06_hs_reg_full_throughput"
   ],
   "note": ""
  },
  {
   "property": "C07",
   "status": "partial",
   "theorems": [
    "C07_hs_reg_full_init_partial",
    "C07_hs_reg_init_order_refuted",
    "C07_hs_reg_partial_init_refuted"
   ],
   "note": "Proved for INIT_DATA of full length, in reversed order. False as stated: INIT_DATA leaves in reversed order and a partial INIT_DATA marks uninitialised stages as occupied."
  },
  {
   "property": "C08",
   "status": "proved",
   "theorems": [
    "C08_stream_node_all_or_nothing",
    "C08_stream_node_master_ready_independent",
    "C08_stream_node_slave_valid_independent",
    "C08_stream_node_ack"
   ],
   "note": ""
  },
  {
   "property": "C09",
   "status": "partial",
   "theorems": [
    "C09_extra_cond_blocks_all_refuted",
    "C09_extra_cond_blocks_its_channel_partial",
    "C09_common_extra_cond_partial"
   ],
   "note": "False as documented: extraConds of a channel only gate that channel. Proved: the channel itself is blocked, and all-or-nothing holds if the same condition is given to every channel."
  },
  {
   "property": "C10",
   "status": "proved",
   "theorems": [
    "C10_join_fair_one_at_a_time",
    "C10_join_fair_is_fair"
   ],
   "note": ""
  },
  {
   "property": "C11",
   "status": "partial",
   "theorems": [
    "C11_join_fair_stable_refuted"
   ],
   "note": "False of the code: the rotating priority re-selects another input while the word waits for dataOut.rd (witness with two constantly valid inputs)."
  },
  {
   "property": "C12",
   "status": "proved",
   "theorems": [
    "C12_join_prioritized"
   ],
   "note": ""
  },
  {
   "property": "C13",
   "status": "proved",
   "theorems": [
    "C13_split_copy_all_or_none"
   ],
   "note": ""
  },
  {
   "property": "C14",
   "status": "proved",
   "theorems": [
    "C14_split_fair_exactly_one",
    "C14_split_fair_is_fair"
   ],
   "note": ""
  },
  {
   "property": "C15",
   "status": "partial",
   "theorems": [
    "C15_split_fair_selected_one_hot_refuted",
    "C15_split_fair_selected_one_hot_partial"
   ],
   "note": "False of the code: selectedOneHot.data is not masked by the readiness of the output which has the priority. Proved for cycles in which that output is ready."
  },
  {
   "property": "C16",
   "status": "proved",
   "theorems": [
    "C16_split_prioritized",
    "C16_split_select"
   ],
   "note": ""
  },
  {
   "property": "C17",
   "status": "partial",
   "theorems": [
    "C17_upscale_refuted",
    "C17_upscale_partial"
   ],
   "note": "False of the code: dataIn.rd is constantly 1 (the counter never reaches ITEMS), a last part accepted while dataOut.rd=0 is lost. Proved for consumers which take each word when it is offered."
  },
  {
   "property": "C18",
   "status": "proved",
   "theorems": [
    "C18_downscale",
    "C18_downscale_stable"
   ],
   "note": ""
  },
  {
   "property": "C19",
   "status": "partial",
   "theorems": [
    "C19_fifodrop_transactional_partial",
    "C19_read_with_discard_refuted",
    "C19_lockup_refuted",
    "C19_space_output_refuted"
   ],
   "note": "False of the code in full: (a) a read of the last cell in the cycle of a discard leaves the empty fifo reporting dataIn.wait forever, (b) the space output does not count stored words. Proved for every environment which does not read in a cycle with discard (and is polite, as FifoWriter/FifoReader document)."
  },
  {
   "property": "C20",
   "status": "proved",
   "theorems": [
    "C20_async_fifo_queue",
    "C20_async_fifo_not_stuck_reader",
    "C20_async_fifo_not_stuck_writer"
   ],
   "note": "DEPTH=2^AW, AW>=1; every interleaving incl. simultaneous edges with either sampling outcome of the first synchroniser. Reset and metastability resolution beyond one register are not modelled."
  },
  {
   "property": "C21",
   "status": "proved",
   "theorems": [
    "C21_gray_bijection",
    "C21_gray_one_bit",
    "C21_gray_counter"
   ],
   "note": "Proved for all widths."
  },
  {
   "property": "C22",
   "status": "proved",
   "theorems": [
    "C22_bin_to_onehot",
    "C22_onehot_to_bin",
    "C22_onehot_roundtrip"
   ],
   "note": "Proved for all widths; binToOneHot, oneHotToBin and their round trip. OneHotToBin of a vector which is not one-hot returns the index of the lowest one (as modelled); en=0 / vld=0 for the empty vector."
  },
  {
   "property": "C23",
   "status": "proved",
   "theorems": [
    "C23_count_leading"
   ],
   "note": "Proved for every width 2^k, k>=1, and both bit values."
  },
  {
   "property": "C24",
   "status": "proved",
   "theorems": [
    "C24_bitonic_sorts",
    "C24_needs_power_of_two"
   ],
   "note": "Proved for power of two item counts, for every total preorder comparison, incl. permutation of the payload. C24_needs_power_of_two shows a sorter of 3 items that does not sort (outside the documented parameter range)."
  },
  {
   "property": "C25",
   "status": "proved",
   "theorems": [
    "C25_xor_matrix",
    "C25_remainder_unique",
    "C25_needs_constant_term"
   ],
   "note": "Proved. C25_needs_constant_term documents that for a polynomial without constant term (outside of the quantifier) the matrix is wrong."
  },
  {
   "property": "C26",
   "status": "partial",
   "theorems": [
    "C26_crc_comb_partial",
    "C26_crc_comb_xorout_refuted",
    "C26_crc_frames_partial",
    "C26_crc_words_partial",
    "C26_crc_xorout_refuted",
    "C26_catalogue_comb",
    "C26_catalogue_words",
    "C26_catalogue_frames"
   ],
   "note": "Proved for all 60 configurations of crcPoly.py (C26_catalogue_*). For arbitrary XOROUT false of the code: Crc applies XOROUT bit-reversed, CrcComb with REFOUT reverses the bits of each byte of XOROUT. The partial theorems hold for palindromic (Crc) / uniform (CrcComb with REFOUT) XOROUT. Crc with mask is modelled for MASK_GRANULARITY=8, LATENCY=1, little endian."
  },
  {
   "property": "C27",
   "status": "proved",
   "theorems": [
    "C27_bin_to_bcd",
    "C27_bin_to_bcd_latency"
   ],
   "note": "Proved for every input width W and every digit count D with 2^W <= 10^D (the code computes D with a float log10, not modelled), every handshake schedule."
  },
  {
   "property": "C28",
   "status": "proved",
   "theorems": [
    "C28_bcd_to_bin",
    "C28_bcd_to_bin_latency"
   ],
   "note": "Proved for every number of digits and every schedule. bit_count's reset value is taken modulo the width of the register: for BCD_DIGITS where MAX_COUNT is a power of two (e.g. 1 or 19) hwt's strict from_py would refuse to elaborate the component."
  },
  {
   "property": "C29",
   "status": "proved",
   "theorems": [
    "C29_lfsr_periodic",
    "C29_lfsr_recurrence"
   ],
   "note": "Proved for every register width and tap mask which contains the last stage."
  },
  {
   "property": "C30",
   "status": "proved",
   "theorems": [
    "C30_ram_handshaked",
    "C30_ram_handshaked_live"
   ],
   "note": "Proved for HAS_R and HAS_W without HAS_BE, RAM port included."
  },
  {
   "property": "C31",
   "status": "partial",
   "theorems": [
    "C31_cdc_partial",
    "C31_cdc_live_partial",
    "C31_cdc_refuted"
   ],
   "note": "False of the code under back-pressure: dataOut.vld is a delayed copy of the FSM state while the data register is loaded only when dataOut.rd is high, so an old word is delivered and the new one lost (C31_cdc_refuted). Proved, with progress, for consumers which are ready at every edge of their clock. Reset release is not modelled."
  },
  {
   "property": "C32",
   "status": "partial",
   "theorems": [
    "C32_cam_lookup",
    "C32_cam_addressable_partial",
    "C32_cam_addressable_refuted"
   ],
   "note": "The lookup is proved. The addressability of every item is false for ITEMS=2^k+1: write.addr has log2ceil(ITEMS-1) bits and the last item can not be written. Modelled with USE_VLD_BIT."
  },
  {
   "property": "C33",
   "status": "proved",
   "theorems": [
    "C33_ram_byte_enable",
    "C33_ram_blocks"
   ],
   "note": "Proved for any set of ports and any byte enable pattern; also that splitting into blocks of MAX_BLOCK_DATA_WIDTH keeps the read data. Where two ports write the same byte in the same cycle nothing is claimed."
  },
  {
   "property": "C34",
   "status": "partial",
   "theorems": [
    "C34_ram_xor_partial",
    "C34_stale_refuted",
    "C34_corrupt_refuted",
    "C34_redirect_refuted"
   ],
   "note": "False of the code as stated (three witnesses: stale read one cycle after the write, corruption after successive writes of two ports, bypass compares the address pins of the next cycle). Proved under the guards which exclude these three."
  },
  {
   "property": "C35",
   "status": "proved",
   "theorems": [
    "C35_slave_regions",
    "C35_explicit_accepted_iff",
    "C35_auto_accepted"
   ],
   "note": "Proved over all lists of slaves (python integers, also negative ones)."
  },
  {
   "property": "C36",
   "status": "partial",
   "theorems": [
    "C36_addr_width_partial",
    "C36_addr_width_order_refuted",
    "C36_addr_width_pow2_refuted"
   ],
   "note": "False of the code: the width is computed from the slave declared last, and log2ceil of the last word address is one bit short if that is a power of two. Proved if neither happens."
  },
  {
   "property": "C37",
   "status": "proved",
   "theorems": [
    "C37_separable_groups"
   ],
   "note": "Proved for every connection matrix and every order in which python iterates the sets."
  },
  {
   "property": "C38",
   "status": "partial",
   "theorems": [
    "C38_remap_partial",
    "C38_remap_refuted",
    "C38_translate_value"
   ],
   "note": "False of the code for an aligned region which is mapped to an aligned region with another offset: the upper address bits are replaced with offset_out itself instead of offset_out>>L. Proved for all other regions; constants which do not fit and zero-width slices are elaboration errors."
  },
  {
   "property": "C39",
   "status": "proved",
   "theorems": [
    "C39_address_step"
   ],
   "note": "Proved for all powers of two. With equal steps a narrower destination truncates silently, which the hypotheses exclude."
  },
  {
   "property": "C40",
   "status": "partial",
   "theorems": [
    "C40_sim_ram_alloc_partial",
    "C40_sim_ram_no_error_partial",
    "C40_malloc_refuted",
    "C40_get_bits",
    "C40_calloc_read"
   ],
   "note": "Reads are proved for every content (C40_get_bits) and every later allocation (C40_calloc_read). Disjointness is false of the code for malloc of sizes/offsets which are not whole cells (size // cellSize cells are reserved, prevAllocatedAddrEnd is set to the start): C40_malloc_refuted. Proved for whole cells; calloc may have any item size. calloc at an unaligned address (shiftIntArray of hwt) and getStruct are not modelled."
  },
  {
   "property": "C41",
   "status": "proved",
   "theorems": [
    "C41_shared_timers"
   ],
   "note": "Proved for every list of periods and every enable history, also with rstSig outside of the reset cycles. In a reset cycle ticks derived from bits of a larger counter (and of period 1) are not masked (example in TimerProps.v)."
  },
  {
   "property": "C42",
   "status": "partial",
   "theorems": [
    "C42_dynamic_timer_partial",
    "C42_free_running_partial",
    "C42_free_running_refuted"
   ],
   "note": "False of the code without enableSig: the register is loaded with r + 0 and a period other than 1 never ticks. Proved with enableSig (and optional rstSig). The variant rstSig without enableSig builds a tuple condition and is not modelled."
  },
  {
   "property": "C43",
   "status": "partial",
   "theorems": [
    "C43_max_frame_words",
    "C43_timeout_words",
    "C43_both_words",
    "C43_both_frame_size",
    "C43_timeout_closes",
    "C43_both_closes_refuted",
    "C43_timeout_restart_refuted"
   ],
   "note": "Word conservation and frame sizes are proved for all three variants, closing by the timeout for the variant with IN_TIMEOUT only. Two defects: with both parameters the timeout counter is reloaded in each cycle in which the last word of a full frame waits, the word stays until the next input (C43_both_closes_refuted); with IN_TIMEOUT only the counter is not restarted by an input word, frames are closed too early (C43_timeout_restart_refuted)."
  },
  {
   "property": "C44",
   "status": "proved",
   "theorems": [
    "C44_create_frame",
    "C44_create_frame_bytes",
    "C44_join_streams",
    "C44_join_created"
   ],
   "note": "Proved for create_frame and join_streams and for their composition."
  },
  {
   "property": "C45",
   "status": "partial",
   "theorems": [
    "C45_join_fair_slow_consumer_refuted"
   ],
   "note": "False of the code: the priority rotates every clock, a consumer ready every other cycle starves an input for any number of transfers. With a constantly ready consumer fairness holds (C10)."
  },
  {
   "property": "C46",
   "status": "partial",
   "theorems": [
    "C46_sample_done",
    "C46_majority_partial",
    "C46_majority_refuted"
   ],
   "note": "False of the code: the counter is cleared in the cycle of the last sample, which is never counted (the repository has a TODO on it). Proved if the last sample is low; the done tick is proved in full. Modelled without rstSig."
  },
  {
   "property": "C47",
   "status": "proved",
   "theorems": [
    "C47_edge_detector",
    "C47_reg_path"
   ],
   "note": "Proved."
  },
  {
   "property": "C48",
   "status": "proved",
   "theorems": [
    "C48_next_frame_offsets"
   ],
   "note": "Proved."
  },
  {
   "property": "C49",
   "status": "partial",
   "theorems": [
    "C49_fifo_copy",
    "C49_empty_replay_garbage",
    "C49_axis_fifo_copy",
    "C49_axis_fifo_copy_live_partial",
    "C49_axis_fifo_copy_live_refuted",
    "C49_axis_reg_copy_partial",
    "C49_axis_reg_copy_refuted"
   ],
   "note": "Word order and replay are proved for FifoCopy and Axi4SFifoCopy. False of the code: a frame of DEPTH-1 words deadlocks the AXI-stream version although its doc asks only DEPTH > MAX_FRAME_LEN (C49_axis_fifo_copy_live_refuted; proved up to DEPTH-2); Axi4SRegCopy overwrites the id of an accepted word if copy_frame is high while dataOut is not valid (C49_axis_reg_copy_refuted; proved otherwise)."
  },
  {
   "property": "C50",
   "status": "partial",
   "theorems": [
    "C50_fifo_array_partial",
    "C50_fifo_array_refuted"
   ],
   "note": "Proved for inserts with append=0 whose addr is not a node with a successor. False otherwise: the documentation says that addr is ignored, but the next pointer of node addr is overwritten and its list is cut (C50_fifo_array_refuted). Only ITEMS = 2^k elaborates."
  },
  {
   "property": "C51",
   "status": "proved",
   "theorems": [
    "C51_upscale_words",
    "C51_upscale_bytes",
    "C51_downscale_words",
    "C51_downscale_bytes"
   ],
   "note": "Proved for all ratios. keep (handled like strb) is not modelled separately."
  },
  {
   "property": "C52",
   "status": "partial",
   "theorems": [
    "C52_axis_en_partial",
    "C52_axis_en_refuted"
   ],
   "note": "False of the code: framePending starts at 0 and is only updated while it is 1, so en cuts frames. Proved while en does not fall inside of a frame."
  },
  {
   "property": "C53",
   "status": "proved",
   "theorems": [
    "C53_axis_join_frames"
   ],
   "note": "Proved."
  },
  {
   "property": "C54",
   "status": "partial",
   "theorems": [
    "C54_burst_once",
    "C54_burst_repeat",
    "C54_burst_repeat_offer_refuted",
    "C54_burst_bytes_refuted"
   ],
   "note": "Proved for data given as words. False of the code for data given as bytes (the last word is sent twice, the mask of the last word is computed as (size % word bytes)//8: C54_burst_bytes_refuted) and with REPEAT the next round is not offered until ready is high (C54_burst_repeat_offer_refuted)."
  },
  {
   "property": "C55",
   "status": "proved",
   "theorems": [
    "C55_uart_tx"
   ],
   "note": "Proved."
  },
  {
   "property": "C56",
   "status": "proved",
   "theorems": [
    "C56_uart_rx"
   ],
   "note": "Proved for OVERSAMPLING >= 2 (the code asks a power of two >= 8). Aborted reception after a false start bit is modelled but not part of the claim."
  },
  {
   "property": "C57",
   "status": "partial",
   "theorems": [
    "C57_uart_loopback_partial",
    "C57_uart_loopback_refuted"
   ],
   "note": "False of the code: the divider of the receiver is rounded down twice and the assertion FREQ >= BAUD * OVERSAMPLING accepts parameters (e.g. FREQ = 31 BAUD, 16 samples) with which a wrong byte is received (C57_uart_loopback_refuted). Proved when 9 * (R mod os) <= os/2 * (R / os), R = FREQ//BAUD."
  },
  {
   "property": "C58",
   "status": "proved",
   "theorems": [
    "C58_reorder",
    "C58_reorder_live"
   ],
   "note": "Proved."
  },
  {
   "property": "C59",
   "status": "partial",
   "theorems": [
    "C59_booth_partial",
    "C59_booth_latency",
    "C59_booth_refuted"
   ],
   "note": "False of the code when the first operand is the minimum -2^(n-1), which the documentation allows: the subtraction overflows (C59_booth_refuted: -8 * 1 = 8). Proved for every other operand; latency proved for all."
  },
  {
   "property": "C60",
   "status": "partial",
   "theorems": [
    "C60_ripple_adder",
    "C60_ripple_adder_wires",
    "C60_ripple_adder0_refuted"
   ],
   "note": "Proved for RippleAdder1, 2 and 3. RippleAdder0 connects operand a twice and the carry of bit 0 to all bits (C60_ripple_adder0_refuted)."
  },
  {
   "property": "C61",
   "status": "partial",
   "theorems": [
    "C61_pid_partial",
    "C61_pid_refuted"
   ],
   "note": "False of the code: the error is computed as input - target (C61_pid_refuted). Proved with this error. The width of the output is DATAIN_WIDTH, DATAOUT_WIDTH is not used; COEF_WIDTH = DATAIN_WIDTH is assumed."
  },
  {
   "property": "C62",
   "status": "partial",
   "theorems": [
    "C62_plru_sizes",
    "C62_plru_half_partial",
    "C62_plru_table_refuted",
    "C62_plru_used_refuted",
    "C62_plru_mask_ignored",
    "C62_plru_stuck"
   ],
   "note": "False of the code: mark_use_many ignores which items were used (C62_plru_mask_ignored, C62_plru_stuck for trees of any size), get_lru gives the other item of the pair than documented, and only 2 and 4 ways elaborate. Proved: get_lru gives an item of the half selected by the root."
  },
  {
   "property": "C63",
   "status": "proved",
   "theorems": [
    "C63_fifo_oooread"
   ],
   "note": "Proved for every ITEMS >= 1 (the code elaborates if log2ceil(ITEMS-1) = log2ceil(ITEMS)). FifoOutOfOrderReadFiltered (with the CAM) is not modelled."
  },
  {
   "property": "C64",
   "status": "partial",
   "theorems": [
    "C64_vld_cdc_partial",
    "C64_vld_cdc_drain_partial",
    "C64_vld_cdc_refuted"
   ],
   "note": "False of the code: the data register of the destination is loaded two cycles after the word was shown, when the source may show another word, and a faster destination clock sees a word several times (C64_vld_cdc_refuted, C64_wrong). Proved for alternating clock edges and data held for two more cycles."
  },
  {
   "property": "C65",
   "status": "partial",
   "theorems": [
    "C65_timeout_read_partial",
    "C65_timeout_write_partial",
    "C65_timeout_read_refuted",
    "C65_timeout_write_refuted",
    "C65_timeout_stable_refuted"
   ],
   "note": "False of the code: the pending flag is not cleared by a response, so an answered request also gets a timeout response (C65_timeout_read_refuted, C65_timeout_write_refuted), and the error response is withdrawn after one cycle if the master is not ready (C65_timeout_stable_refuted). Proved: an unanswered request gets the error response with its id exactly TIMEOUT cycles later and before that the channel is the slave's."
  },
  {
   "property": "C66",
   "status": "proved",
   "theorems": [
    "C66_to_lite",
    "C66_to_lite_progress"
   ],
   "note": "Proved for one direction (read with all responses, write with the last one) composed with the real HandshakedFifo. The registers at both ends (AxiBuff) are queues (C02) and are not in the composition. Bursts are treated as INCR by the code whatever the burst field says; the error of a beat before the last is lost for writes as documented."
  },
  {
   "property": "C67",
   "status": "partial",
   "theorems": [
    "C67_mi32_to_axi_write",
    "C67_mi32_to_axi_read_partial",
    "C67_mi32_to_axi_read_refuted"
   ],
   "note": "Writes are proved. False of the code for reads: ar.valid does not wait for the register of the write data, so a read which waits for the w channel is requested again in each cycle (C67_mi32_to_axi_read_refuted). Proved for reads if the w channel does not stall. As documented the bridge needs ar.ready and aw.ready at the same time."
  },
  {
   "property": "C68",
   "status": "partial",
   "theorems": [
    "C68_axi_to_mi32_partial",
    "C68_axi_to_mi32_refuted",
    "C68_axi_to_mi32_overwrite_refuted",
    "C68_axi_to_mi32_write_refuted"
   ],
   "note": "False of the code: a read accepted together with the data of the previous one is lost and the bridge then accepts nothing any more (C68_axi_to_mi32_refuted), a waiting read is overwritten by the next one (C68_axi_to_mi32_overwrite_refuted), a write whose data comes later is dropped and acknowledged (C68_axi_to_mi32_write_refuted). Proved for a master with one transaction at a time which gives write data with the address."
  },
  {
   "property": "C69",
   "status": "proved",
   "theorems": [
    "C69_window",
    "C69_buffer"
   ],
   "note": "Proved for every window and every depth of the data registers; the address buffer is the default one register. Reads of the offset register and accesses behind the window are passed like the others."
  },
  {
   "property": "C70",
   "status": "partial",
   "theorems": [
    "C70_mi32_routing",
    "C70_mi32_read_data_partial",
    "C70_mi32_read_data_refuted"
   ],
   "note": "Routing is proved. False of the code for read data: drdy of the master follows the order FIFO and not the data of the slave, so a slave which answers after two cycles gives two words for one read (C70_mi32_read_data_refuted). Proved for slaves which answer after exactly one cycle, composed with the real HandshakedFifo."
  },
  {
   "property": "C71",
   "status": "proved",
   "theorems": [
    "C71_strict_order_read",
    "C71_strict_order_read_data_moves",
    "C71_strict_order_read_request_moves"
   ],
   "note": "Proved for every number of drivers, composed with the models of HsJoinFairShare, oneHotToBin and HandshakedFifo, with progress of requests and data."
  },
  {
   "property": "C72",
   "status": "proved",
   "theorems": [
    "C72_strict_order_write",
    "C72_strict_order_write_moves"
   ],
   "note": "Proved for every number of drivers, composed with the models of HsJoinFairShare, oneHotToBin and both HandshakedFifos, with progress of data and acknowledges."
  },
  {
   "property": "C73",
   "status": "partial",
   "theorems": [
    "C73_datapump_address_partial",
    "C73_single_word_request_refuted",
    "C73_byte_bus_refuted",
    "C73_chunk_over_align_refuted",
    "C73_len_overflow_refuted"
   ],
   "note": "False of the code for four kinds of configurations: MAX_LEN = 0 with a request over a word boundary (one beat only), DATA_WIDTH = 8 (the address is aligned to two bytes), CHUNK_WIDTH > ALIGNAS (a legal request is taken and dropped), MAX_LEN + 1 equal to the burst limit with ALIGNAS < DATA_WIDTH (the length wraps to 0). Each has a _refuted theorem. Proved with the guards chunk_aligned, fits and DATA_WIDTH >= 16. The 4 KB rule of AXI is not respected by the code and is not part of the claim."
  },
  {
   "property": "C74",
   "status": "partial",
   "theorems": [
    "C74_read_datapump_partial",
    "C74_read_error"
   ],
   "note": "Proved for ALIGNAS = DATA_WIDTH (no shift logic) with the guards of C73, composed with the address handler and HandshakedFifo. The shift path for unaligned requests is not modelled. The error theorem has no guards on the requests."
  },
  {
   "property": "C75",
   "status": "partial",
   "theorems": [
    "C75_write_datapump_partial",
    "C75_write_datapump_word_aligned_partial",
    "C75_idle_driver_refuted",
    "C75_narrow_alignas_refuted",
    "C75_write_error"
   ],
   "note": "False of the code: the counter of words in a burst is not cleared when the rest of an unaligned frame is sent and the driver offers no word in that cycle, so a later burst gets last too early (C75_idle_driver_refuted); with 8 < ALIGNAS < DATA_WIDTH a legal request stops the datapump (C75_narrow_alignas_refuted). Proved with the guards of C73 if the driver offers a word whenever one is sent, or if all requests start at a bus word, composed with the address handler and both HandshakedFifos. After an error the words of the driver are still taken and dropped. Memory is seen as the list of byte writes, no slave errors."
  },
  {
   "property": "C76",
   "status": "partial",
   "theorems": [
    "C76_flip_register",
    "C76_flip_cntr",
    "C76_flip_ram_partial",
    "C76_flip_ram_refuted"
   ],
   "note": "False of the code for FlipRam: the multiplexer of the read data follows the current select_sig, so a read issued in the cycle before a flip returns the data of the other RAM. Proved for FlipRegister and FlipCntr, for FlipRam if select_sig does not change in the cycle after the read."
  },
  {
   "property": "C77",
   "status": "partial",
   "theorems": [
    "C77_cumulative_mask_read_partial",
    "C77_cumulative_mask_other_ports",
    "C77_cumulative_mask_write_wait",
    "C77_cumulative_mask_read_refuted"
   ],
   "note": "False of the code: in the second cycle of an accumulating write the first read port reports ready although it is still used by the write, the accepted read returns the word of the write. Proved for the first read port in cycles without an accumulating write and for all other read ports, for users which keep an offered write until it is accepted."
  },
  {
   "property": "C78",
   "status": "proved",
   "theorems": [
    "C78_hash_table",
    "C78_hash_table_live",
    "C78_hash_table_stable"
   ],
   "note": "Proved for LOOKUP_ID_WIDTH = 0 (the component cannot be built with another value), composed with the models of RamAsAddrDataRdVld, the RAM and HandshakedReg; the hash is an arbitrary function (C11 is about the CRC)."
  },
  {
   "property": "C79",
   "status": "partial",
   "theorems": [
    "C79_cuckoo_map_partial",
    "C79_cuckoo_delete_refuted",
    "C79_cuckoo_progress_partial"
   ],
   "note": "False of the code for delete: if the deleted key is absent and all its slots are occupied, an unrelated item is invalidated (C79_cuckoo_delete_refuted). Proved if only keys of the map are deleted, with the tables as abstract HashTableCores with the behaviour of C78 and any timing; MAX_LOOKUP_OVERLAP is such that its counter can be built (ML-1 < 2^log2ceil(ML-1)); the key of the stash is kept where the code assigns an undefined one after a dropped lookup."
  },
  {
   "property": "C80",
   "status": "partial",
   "theorems": [
    "C80_axilite_endpoint_partial",
    "C80_axilite_registers",
    "C80_axilite_slow_reader_refuted",
    "C80_axilite_write_refuted"
   ],
   "note": "False of the code: the data of a memory read changes if the answer is not taken in its first cycle (C80_axilite_slow_reader_refuted), and a write in the cycle after an accepted memory read replaces its data (C80_axilite_write_refuted). Proved without these for all users except for the data of memory reads (C80_axilite_registers), and with them if neither happens. The address space is given as the words and parts which hwt makes of its template (cfg_ok says what they are); fields are registers of at most one word if they are writable, memories have items of the size of a bus word and are RamSingleClock; strobes are ignored by the code. "
  },
  {
   "property": "C81",
   "status": "proved",
   "theorems": [
    "C81_mi32_endpoint"
   ],
   "note": "The address space is given as the words and parts which hwt makes of its template (cfg_ok says what they are); fields are registers of at most one word if they are writable, memories have items of the size of a bus word and are RamSingleClock; strobes are ignored by the code. "
  },
  {
   "property": "C82",
   "status": "proved",
   "theorems": [
    "C82_bram_endpoint"
   ],
   "note": "The address space is given as the words and parts which hwt makes of its template (cfg_ok says what they are); fields are registers of at most one word if they are writable, memories have items of the size of a bus word and are RamSingleClock; strobes are ignored by the code. "
  },
  {
   "property": "C83",
   "status": "proved",
   "theorems": [
    "C83_avalon_endpoint"
   ],
   "note": "The address space is given as the words and parts which hwt makes of its template (cfg_ok says what they are); fields are registers of at most one word if they are writable, memories have items of the size of a bus word and are RamSingleClock; strobes are ignored by the code. "
  },
  {
   "property": "C84",
   "status": "proved",
   "theorems": [
    "C84_ipif_endpoint"
   ],
   "note": "The address space is given as the words and parts which hwt makes of its template (cfg_ok says what they are); fields are registers of at most one word if they are writable, memories have items of the size of a bus word and are RamSingleClock; strobes are ignored by the code. "
  },
  {
   "property": "C85",
   "status": "partial",
   "theorems": [
    "C85_measuring_fifo_partial",
    "C85_measuring_fifo_ready_partial",
    "C85_measuring_fifo_stable_partial",
    "C85_measuring_fifo_error_partial",
    "C85_byte_stream_refuted"
   ],
   "note": "False of the code for DATA_WIDTH = 8: log2ceil(1) is 1, so that the sizes are doubled (C85_byte_stream_refuted). Proved for words of 2^k bytes, k >= 1, and strobes with the valid bytes first."
  },
  {
   "property": "C86",
   "status": "partial",
   "theorems": [
    "C86_array_items_partial",
    "C86_array_progress_partial",
    "C86_array_hold",
    "C86_array_of_bytes_refuted"
   ],
   "note": "False of the code for items of one byte: log2ceil(1) is 1, so that the addresses are doubled (C86_array_of_bytes_refuted). Proved for items of 2^k bytes, k >= 1, for arrays inside of the address space. The memory is a map of bytes, a word is little endian."
  },
  {
   "property": "C87",
   "status": "partial",
   "theorems": [
    "C87_mmu_translation",
    "C87_mmu_progress",
    "C87_mmu_segfault",
    "C87_mmu_hold_refuted"
   ],
   "note": "Holding an offered address is false of the code: segfaultFlag set by a later address withdraws it (C87_mmu_hold_refuted). The rest is proved for address widths of 8*2^k, k >= 1, if the second level tables are inside of the address space. A write of the first level table in a cycle with an accepted address is lost (the component documents that the table has to be written before)."
  },
  {
   "property": "C88",
   "status": "proved",
   "theorems": [
    "C88_read_routing",
    "C88_read_progress",
    "C88_read_fair",
    "C88_read_addresses",
    "C88_read_pair",
    "C88_unmapped_blocks"
   ],
   "note": "Data routing is proved for connections in which every connected pair shares its master or its slave with another pair, and separately for pairs connected only to each other (every group made by AxiInterconnectMatrix is one of these); a direct use with both kinds at once has C88_read_addresses. Finding: a request for an address which belongs to no connected slave is accepted, never forwarded nor answered, and blocks its master forever (C88_unmapped_blocks)."
  },
  {
   "property": "C89",
   "status": "proved",
   "theorems": [
    "C89_write_routing",
    "C89_write_progress",
    "C89_write_fair",
    "C89_write_pair"
   ],
   "note": "As C88. The order FIFOs of data and responses hold one entry less because their split is combined, hence the bound of C89_write_fair."
  },
  {
   "property": "C90",
   "status": "partial",
   "theorems": [
    "C90_offer_stays_partial",
    "C90_offer_stays_refuted",
    "C90_offer_waits_partial"
   ],
   "note": "False of the code for reads and for writes without AW_AND_W_WORD_TOGETHER: the mux of the payload includes ready of the slave, the payload is undefined until the slave is ready (C90_offer_stays_refuted). Proved for writes with AW_AND_W_WORD_TOGETHER, and that valid is never withdrawn in any of them."
  },
  {
   "property": "C91",
   "status": "partial",
   "theorems": [
    "C91_matrix_access_partial",
    "C91_access_type_refuted",
    "C91_write_only_refuted",
    "C91_set_order_refuted"
   ],
   "note": "False of the code in three ways: inside of a group access types are dropped, so a master may write a slave it may only read (C91_access_type_refuted); a master which may only read or only write makes elaboration fail (C91_write_only_refuted); regions are listed in iteration order of a set but numbered by the sorted order, with CPython {1, 8} is iterated as 8, 1 and the two slaves are swapped (C91_set_order_refuted). Proved for all configurations without these."
  },
  {
   "property": "C92",
   "status": "partial",
   "theorems": [
    "C92_array_written_partial",
    "C92_uploaded_partial",
    "C92_progress_partial",
    "C92_long_buffer_refuted",
    "C92_small_array_refuted",
    "C92_bytes_refuted"
   ],
   "note": "False of the code for three accepted configurations: BUFF_DEPTH > 16 (length of the request is cut to 4 bits, C92_long_buffer_refuted), ITEMS < BUFF_DEPTH (a request overruns the array, C92_small_array_refuted), 8 bit data (log2ceil(1) = 1, only every second byte is used, C92_bytes_refuted). Proved for all the others, with the base address written in the first cycle and kept, TIMEOUT >= 2."
  },
  {
   "property": "C93",
   "status": "partial",
   "theorems": [
    "C93_list_read_partial",
    "C93_progress_partial",
    "C93_pointer_width_refuted",
    "C93_bytes_refuted"
   ],
   "note": "False of the code for two accepted configurations: ITEMS_IN_BLOCK >= 2^PTR_WIDTH (C93_pointer_width_refuted: not announced items and the next pointer are given out) and 8 bit words (C93_bytes_refuted). Proved for the others (ID differs from ID_LAST, BUFFER_CAPACITY >= 4), with the base address written in the first cycle, rdPtr not written from outside, wrPtr always less than 2^PTR_WIDTH ahead of the loaded items and an honest datapump."
  },
  {
   "property": "C94",
   "status": "partial",
   "theorems": [
    "C94_order_partial",
    "C94_space_partial",
    "C94_first_block_partial",
    "C94_next_block_refuted",
    "C94_pointer_overwritten_refuted",
    "C94_last_word_refuted",
    "C94_timeout_refuted"
   ],
   "note": "False of the code in four ways: the loaded next pointer is never used (C94_next_block_refuted), a request may cover the next pointer (C94_pointer_overwritten_refuted), the last word of a request is lost if it is not taken at once (C94_last_word_refuted, the component is then stuck for ever), a request made by the timeout is longer than the buffered items (C94_timeout_refuted). Proved: order for every environment, requests within the announced space for every honest datapump, and the full property in the first block if words are always taken and items are always offered."
  },
  {
   "property": "C95",
   "status": "proved",
   "theorems": [
    "C95_fields",
    "C95_offer",
    "C95_accept"
   ],
   "note": "SHARED_READY = False, little endian, no HUnion and HStream members; the source must keep an offered word (feeds). SHARED_READY = True cannot be built: the output interface has no rd which the node of the field asks for."
  },
  {
   "property": "C96",
   "status": "partial",
   "theorems": [
    "C96_fields_partial",
    "C96_accept_partial",
    "C96_offer_partial",
    "C96_overflow_partial",
    "C96_underflow_partial",
    "C96_last_word_refuted",
    "C96_long_as_short_refuted",
    "C96_long_frame_blocks"
   ],
   "note": "False of the code in two ways: with OVERFLOW_SUPPORT and a structure which does not fill its last word the fields which end in that word are never given out (C96_last_word_refuted); with both supports the end of a long frame is reported as underflow (C96_long_as_short_refuted). Proved for the rest; without OVERFLOW_SUPPORT a long frame blocks the input for ever (C96_long_frame_blocks)."
  },
  {
   "property": "C97",
   "status": "partial",
   "theorems": [
    "C97_frames_partial",
    "C97_taken_partial",
    "C97_valid",
    "C97_last",
    "C97_strb",
    "C97_lost_value_refuted"
   ],
   "note": "False of the code: handshakeLogicForWord synchronizes only the fields which end in the word, so such a field is taken even if another field of the word, which continues to the next word, is not offered and nothing is sent (C97_lost_value_refuted). Proved for structures without such a word and for inputs offered all at once; validity, marks and strobe for every environment. No HUnion and HStream members."
  },
  {
   "property": "C98",
   "status": "partial",
   "theorems": [
    "C98_round_trip_partial"
   ],
   "note": "Under the same condition as C97 (its refutation breaks the round trip as well)."
  },
  {
   "property": "C99",
   "status": "partial",
   "theorems": [
    "C99_frames_partial",
    "C99_rate",
    "C99_max_len_refuted",
    "C99_held_partial",
    "C99_held_refuted"
   ],
   "note": "False of the code in two ways: for MAX_LEN a power of two the length MAX_LEN does not fit the register (C99_max_len_refuted) and a register write changes or withdraws the offered word (C99_held_refuted). Proved for the lengths which fit and for quiet registers; AxiLiteEndpoint itself is not part of this model (see C80)."
  },
  {
   "property": "C100",
   "status": "partial",
   "theorems": [
    "C100_write_partial",
    "C100_read_partial",
    "C100_rdata_held",
    "C100_released",
    "C100_hold_partial",
    "C100_hold_refuted",
    "C100_preamble_refuted"
   ],
   "note": "False of the code in two ways: a request which waits for the end of the previous one gets a preamble of 31 ones (C100_preamble_refuted), and the last bit of written data disappears in the very cycle of the rising edge which samples it (C100_hold_refuted). Proved otherwise: all bits of every frame with 31 or 32 ones before it, read data, release of the line."
  },
  {
   "property": "C101",
   "status": "partial",
   "theorems": [
    "C101_words_partial",
    "C101_stable_partial",
    "C101_loop_refuted",
    "C101_deselect_refuted",
    "C101_keep_selected_refuted"
   ],
   "note": "False of the code in three ways: if the wait timer can not be made of the word counter (half period not a power of two, e.g. frequency ratio 10) its tick and the reset of the timers are a combinational loop without a stable value (C101_loop_refuted); a slave is not deselected between two transfers if the next word is ready (C101_deselect_refuted); it is deselected inside of a transfer if the next word is late (C101_keep_selected_refuted). Proved otherwise for half periods which are powers of two and waits of 1, 2 or 4 periods. One slave, HAS_TX and HAS_RX, one data line."
  },
  {
   "property": "C102",
   "status": "proved",
   "theorems": [
    "C102_split",
    "C102_drained",
    "C102_rate"
   ],
   "note": "Proved in full, including frames with no data before the footer. One of keep and strb."
  },
  {
   "property": "C103",
   "status": "partial",
   "theorems": [
    "C103_held_partial",
    "C103_deadlock_refuted",
    "C103_held_refuted"
   ],
   "note": "False of the code: valid of each output depends on ready of the other one for a word with data and footer, it is withdrawn (C103_held_refuted) and two sinks which wait for valid get nothing for ever (C103_deadlock_refuted). Proved: the word is kept if the other sink is ready in the next cycle."
  },
  {
   "property": "C104",
   "status": "proved",
   "theorems": [
    "C104_lookup",
    "C104_order",
    "C104_line"
   ],
   "note": "Proved in full on top of the model of RamSingleClock (bytes, byte enables, packing of records)."
  },
  {
   "property": "C105",
   "status": "partial",
   "theorems": [
    "C105_tags_partial",
    "C105_tags_refuted"
   ],
   "note": "False of the code: in the cycle after an update of the line found and way are corrected by the update but tags are still the old ones (C105_tags_refuted: found in way 1 and tags[1] invalid). Proved for answers whose line was not updated in the cycle before."
  },
  {
   "property": "C106",
   "status": "partial",
   "theorems": [
    "C106_transfers_partial",
    "C106_data",
    "C106_registers",
    "C106_held",
    "C106_single_word_refuted"
   ],
   "note": "False of the code for MAX_BUTST_LEN = 1 and more words (C106_single_word_refuted: last never comes). Proved for MAX_BUTST_LEN >= 2."
  },
  {
   "property": "C107",
   "status": "partial",
   "theorems": [
    "C107_control_partial",
    "C107_control_refuted"
   ],
   "note": "False of the code: Concat puts the flags to the two top bits, bits 0 and 1 always read 0 (C107_control_refuted); on/off is written by bit 0. Proved: where the flags are."
  },
  {
   "property": "C108",
   "status": "partial",
   "theorems": [
    "C108_page_partial",
    "C108_page_refuted"
   ],
   "note": "False of the code (C108_page_refuted: base 4088). Proved for a size of full burst which divides 4096 and the base address."
  },
  {
   "property": "C109",
   "status": "proved",
   "theorems": [
    "C109_waves",
    "C109_conditions"
   ],
   "note": "Proved: the waves from reset for histories without lost arbitration (C109_waves), the condition rule for every history of a user which holds commands and starts STOP, READ, WRITE only behind START (C109_conditions)."
  },
  {
   "property": "C110",
   "status": "partial",
   "theorems": [
    "C110_period_refuted",
    "C110_stretch_refuted",
    "C110_fixed_partial"
   ],
   "note": "False of the code: stateClkEn does not enable the FSM (C110_period_refuted, C110_stretch_refuted). Proved: without lost arbitration the lines depend on the commands only, neither on clk_cnt_initVal nor on the lines."
  },
  {
   "property": "C111",
   "status": "partial",
   "theorems": [
    "C111_read_refuted",
    "C111_dout_partial",
    "C111_sda_partial"
   ],
   "note": "False of the code: dout is driven by the rising edge of SCL itself and SDA is never stored (C111_read_refuted). Proved: what dout is, and that it never depends on SDA."
  },
  {
   "property": "C112",
   "status": "partial",
   "theorems": [
    "C112_own_stop_refuted",
    "C112_contention_refuted",
    "C112_stop_partial",
    "C112_release"
   ],
   "note": "False of the code: sda_chk is never set, so contention is not noticed (C112_contention_refuted), and the own STOP is reported as lost arbitration (C112_own_stop_refuted). Proved: exactly when it is signalled for a constant clk_cnt_initVal, and that the command is then dropped and the lines are released."
  },
  {
   "property": "C113",
   "status": "partial",
   "theorems": [
    "C113_glitch_partial",
    "C113_reset_refuted"
   ],
   "note": "False for clk_cnt_initVal = 0: registers of the filter start low and a stop is seen behind reset (C113_reset_refuted). Proved for clk_cnt_initVal >= 2."
  },
  {
   "property": "C114",
   "status": "partial",
   "theorems": [
    "C114_round_trip_partial",
    "C114_width_refuted"
   ],
   "note": "False of the code for widths which are not 2^k bytes with k >= 1 (C114_width_refuted: 8 and 24 bit). Proved for the other widths."
  },
  {
   "property": "C115",
   "status": "partial",
   "theorems": [
    "C115_back_partial",
    "C115_marks",
    "C115_rem_refuted"
   ],
   "note": "Marks proved for all widths (C115_marks); the way back for 2^k bytes, k >= 1 (C115_back_partial); rem is wrong for other widths (C115_rem_refuted)."
  },
  {
   "property": "C116",
   "status": "proved",
   "theorems": [
    "C116_write",
    "C116_read",
    "C116_addr",
    "C116_byte_words"
   ],
   "note": "Proved for words of 16 bits and more (AXI4-Lite has 32 or 64). C116_byte_words shows the lane error for 8 bit words, which are outside of the quantifier. OUT_DATA_WIDTH = DATA_WIDTH is wires and is not modelled."
  },
  {
   "property": "C117",
   "status": "proved",
   "theorems": [
    "C117_two_cycles"
   ],
   "note": "Proved."
  },
  {
   "property": "C118",
   "status": "partial",
   "theorems": [
    "C118_first_cycle_refuted",
    "C118_exact_partial",
    "C118_queue_partial"
   ],
   "note": "False of the code if the producer offers a word in the very first cycle after reset: s.rd starts 0 but the enable of the shift register starts 1, so the word comes twice (C118_first_cycle_refuted). Proved exactly for all histories with that copy counted, and as a queue of 5 words if nothing is offered in the first cycle."
  },
  {
   "property": "C119",
   "status": "proved",
   "theorems": [
    "C119_stable",
    "C119_drain",
    "C119_ready"
   ],
   "note": "Proved."
  },
  {
   "property": "C120",
   "status": "proved",
   "theorems": [
    "C120_serial"
   ],
   "note": "Proved."
  },
  {
   "property": "C121",
   "status": "proved",
   "theorems": [
    "C121_hold",
    "C121_progress"
   ],
   "note": "Proved."
  },
  {
   "property": "C122",
   "status": "proved",
   "theorems": [
    "C122_transparent",
    "C122_latency",
    "C122_first_cycle"
   ],
   "note": "Proved. C122_first_cycle shows what registers without reset can do to a master which selects in the first cycle."
  },
  {
   "property": "C123",
   "status": "partial",
   "theorems": [
    "C123_long_read_refuted",
    "C123_small_fifo_refuted",
    "C123_reads_partial",
    "C123_offer_partial"
   ],
   "note": "False in the code. C123_long_read_refuted: the free space is compared with the low log2ceil(R_DATA_FIFO_DEPTH + 1) bits of ar.len, so with depth 16 a read of 33 words is accepted and its words are dropped when r stalls. C123_small_fifo_refuted: with depth 2 the second word of a burst is always dropped. Proved for depth > 2 and lengths which fit in that register (C123_reads_partial, C123_offer_partial)."
  },
  {
   "property": "C124",
   "status": "proved",
   "theorems": [
    "C124_requests",
    "C124_accept"
   ],
   "note": "Proved."
  },
  {
   "property": "C125",
   "status": "partial",
   "theorems": [
    "C125_not_accepted_refuted",
    "C125_writes_partial",
    "C125_progress_partial"
   ],
   "note": "False in the code for RW_PRIORITY = READ (the default): C125_not_accepted_refuted shows a write which is executed and answered although aw.ready was never high, because aw.ready is blocked by a waiting read while the load of the address register is not; the master repeats it. Proved for RW_PRIORITY = WRITE and for reads which are offered only when they fit in the fifo (C125_writes_partial, C125_progress_partial)."
  },
  {
   "property": "C126",
   "status": "proved",
   "theorems": [
    "C126_requests",
    "C126_offer"
   ],
   "note": "Proved."
  },
  {
   "property": "C127",
   "status": "partial",
   "theorems": [
    "C127_back_to_back_refuted",
    "C127_answers_partial"
   ],
   "note": "False in the code for DATA_BUFF_DEPTH = 2 (C127_back_to_back_refuted): dataIn.rd of the buffer is ignored and the fifo of depth 2 can not take words in consecutive cycles, the second one is lost. Proved for all other depths, with the exact latency (C127_answers_partial)."
  },
  {
   "property": "C128",
   "status": "proved",
   "theorems": [
    "C128_transactions"
   ],
   "note": "Proved."
  },
  {
   "property": "C129",
   "status": "partial",
   "theorems": [
    "C129_waits_for_ready_refuted",
    "C129_withdrawn_refuted",
    "C129_progress_partial"
   ],
   "note": "False in the code. C129_waits_for_ready_refuted: aw.valid needs w.ready and w.valid needs aw.ready, a slave which waits for valid is never asked, for runs of any length. C129_withdrawn_refuted: aw.valid goes low without a transfer when w.ready does. Proved: when all ready are high everything passes in the same cycle (C129_progress_partial)."
  },
  {
   "property": "C130",
   "status": "partial",
   "theorems": [
    "C130_read_error_refuted",
    "C130_answers_partial"
   ],
   "note": "False in the code for reads: r.resp is not connected, a failed read can not be told from a good one (C130_read_error_refuted). Data, responses of writes and timing are proved (C130_answers_partial)."
  },
  {
   "property": "C131",
   "status": "partial",
   "theorems": [
    "C131_capacity_refuted",
    "C131_queue_partial",
    "C131_default_partial",
    "C131_builds_partial"
   ],
   "note": "False in the code for the capacity: with latency=1 (or latency=(1, 2)) items is ignored and the result is a register of one (two) words (C131_capacity_refuted). Order, stability and the real capacity are proved for all parameters (C131_queue_partial), capacity and progress for the default latency (C131_default_partial). init_data is covered for the register by C07 and for the fifo by C03."
  },
  {
   "property": "C132",
   "status": "proved",
   "theorems": [
    "C132_axi_buff",
    "C132_builds"
   ],
   "note": "Proved."
  },
  {
   "property": "C133",
   "status": "proved",
   "theorems": [
    "C133_requests",
    "C133_answers",
    "C133_builds"
   ],
   "note": "Proved."
  },
  {
   "property": "C134",
   "status": "proved",
   "theorems": [
    "C134_receive",
    "C134_end"
   ],
   "note": "Proved."
  },
  {
   "property": "C135",
   "status": "proved",
   "theorems": [
    "C135_packets",
    "C135_next",
    "C135_hold"
   ],
   "note": "Proved."
  },
  {
   "property": "C136",
   "status": "partial",
   "theorems": [
    "C136_lost_update_refuted",
    "C136_registers_partial"
   ],
   "note": "False in the code: a change while the previous value is being written is lost, because the completion of the write clears the update flag (C136_lost_update_refuted, for ever). Proved if the inputs change only in the first cycle or when the bridge is ready for a packet, including writes interrupted by the PHY, which are repeated (C136_registers_partial)."
  },
  {
   "property": "C137",
   "status": "partial",
   "theorems": [
    "C137_not_driven_refuted",
    "C137_no_conflict_partial"
   ],
   "note": "False in the code: data.t is the same signal as utmi.tx.rd, so it is low while a command or a byte waits for nxt and in all register writes (C137_not_driven_refuted). Proved: it is never high while the PHY owns the bus or in a turnaround (C137_no_conflict_partial)."
  },
  {
   "property": "C138",
   "status": "partial",
   "theorems": [
    "C138_host_disconnect_refuted",
    "C138_sess_end_refuted",
    "C138_rx_cmd_partial"
   ],
   "note": "False in the code: HostDisconnect is never cleared by anything (C138_host_disconnect_refuted), SessEnd and SessValid keep old values when Vbus becomes valid, so SessEnd and VbusValid are both set (C138_sess_end_refuted). Proved for the other fields (C138_rx_cmd_partial)."
  },
  {
   "property": "C139",
   "status": "partial",
   "theorems": [
    "C139_length_refuted",
    "C139_items_partial",
    "C139_stable_partial",
    "C139_confirm_partial"
   ],
   "note": "False in the code if the number of words in a cacheline is not a power of two: four words of data for len of three (C139_length_refuted). Proved for all powers of two (C139_items_partial) and stability and confirmations for all (C139_stable_partial, C139_confirm_partial). Data and mask of a word are one abstract value; constant fields of aw are not modelled."
  },
  {
   "property": "C140",
   "status": "partial",
   "theorems": [
    "C140_waits_for_ready_refuted",
    "C140_progress_partial"
   ],
   "note": "False in the code: aw.valid is raised only after aw.ready was seen, so a bus which waits for aw.valid is never asked (C140_waits_for_ready_refuted, for ever). Proved: with all sides ready an item is consumed within as many cycles as it has words (C140_progress_partial)."
  },
  {
   "property": "C141",
   "status": "partial",
   "theorems": [
    "C141_whole_words_partial",
    "C141_strobes_partial",
    "C141_read",
    "C141_other_bytes_lost_refuted",
    "C141_unknown_bytes_known_refuted"
   ],
   "note": "False in the code, because the mask of bytes is used as the mask of bits: a partial strobe to a word stored as int makes its other bytes unknown (C141_other_bytes_lost_refuted); on a bus of 64 bits a single byte written to an unknown word makes the rest of it zeros (C141_unknown_bytes_known_refuted). Proved for whole words (C141_whole_words_partial), for strobes outside these two cases (C141_strobes_partial), and reads (C141_read). Not modelled: ids of AXI3 words, invalid requests."
  },
  {
   "property": "C142",
   "status": "proved",
   "theorems": [
    "C142_reads",
    "C142_writes",
    "C142_all_done"
   ],
   "note": "Proved. The bound of one request between two checks is the property of the agents (a transfer per clock); the queue of requests is taken from its newest end."
  },
  {
   "property": "C143",
   "status": "partial",
   "theorems": [
    "C143_read_partial",
    "C143_write_partial",
    "C143_read_refuted",
    "C143_write_refuted"
   ],
   "note": "False in the code: the bytes from the second word are zeros in a read (C143_read_refuted), and a write stores wrong bytes to the second word and overwrites others (C143_write_refuted). Proved: the bytes in the first word (C143_read_partial for words stored as int, C143_write_partial for valid data)."
  },
  {
   "property": "C144",
   "status": "partial",
   "theorems": [
    "C144_atomic_partial",
    "C144_complete_partial",
    "C144_ready_partial",
    "C144_flush_repeated_refuted",
    "C144_overwritten_refuted"
   ],
   "note": "False in the code for a flush which has to wait: while its data is missing the item is flushed again and again (C144_flush_repeated_refuted); while the receivers stall a word of data is taken without its address, the item is overwritten before it is read and the flush returns the new content (C144_overwritten_refuted). Proved if every flush is accepted in the cycle in which it is offered (C144_atomic_partial, C144_complete_partial), which holds if receivers are ready and data comes with the address (C144_ready_partial)."
  },
  {
   "property": "C145",
   "status": "partial",
   "theorems": [
    "C145_writes_partial",
    "C145_reads_partial",
    "C145_torn_read_refuted",
    "C145_stolen_read_refuted"
   ],
   "note": "Atomicity is false in the code: a read between the words of a write returns a part of it (C145_torn_read_refuted); a read between the words of a write with flush is never answered, its words go to flush_data (C145_stolen_read_refuted). Proved: words of writes without flushes (C145_writes_partial, at any schedule of reads), words of reads while nothing is written (C145_reads_partial). Multiword flushes are only in the refutation."
  },
  {
   "property": "C146",
   "status": "partial",
   "theorems": [
    "C146_one_result",
    "C146_equal_partial",
    "C146_equal_word",
    "C146_stall_refuted",
    "C146_other_sizes"
   ],
   "note": "False in the code if the consumer is not ready while a word other than the last one is transferred: the word is accepted but not compared (C146_stall_refuted). Proved for consumers which are ready then (C146_equal_partial), for constants of one word in any schedule (C146_equal_word) and the number of results in any schedule (C146_one_result). Frames of other sizes may be reported as equal (C146_other_sizes)."
  },
  {
   "property": "C147",
   "status": "partial",
   "theorems": [
    "C147_records_partial",
    "C147_way_refuted",
    "C147_successive_refuted"
   ],
   "note": "False in the code: the way is read from the pins a cycle after the handshake, the way which was just used is replaced (C147_way_refuted); an access does not see an update of the record in the previous cycle (C147_successive_refuted). Proved if an index is used once in three cycles, ports hold their values for one more cycle and victims are taken at once (C147_records_partial)."
  },
  {
   "property": "C148",
   "status": "partial",
   "theorems": [
    "C148_answers",
    "C148_stable_refuted"
   ],
   "note": "The number of answers is proved (C148_answers). The stability is false in the code: the read port of the memory follows the next request, so the offered victim changes (C148_stable_refuted)."
  },
  {
   "property": "C149",
   "status": "partial",
   "theorems": [
    "C149_words_partial",
    "C149_gap_refuted"
   ],
   "note": "False in the code: a cycle without valid inside a packet makes the adapter repeat the previous byte (C149_gap_refuted). Proved for packets whose bytes come in consecutive cycles after the first one (C149_words_partial)."
  },
  {
   "property": "C150",
   "status": "proved",
   "theorems": [
    "C150_bytes",
    "C150_packets",
    "C150_progress"
   ],
   "note": ""
  },
  {
   "property": "C151",
   "status": "proved",
   "theorems": [
    "C151_printed",
    "C151_progress"
   ],
   "note": "A format with a second item of the same base ('b', 'o', 'x', 'X') which is longer than all other items is refused by the elaboration, because max_chars_per_format does not count it; such formats are excluded by sf_elaborates."
  },
  {
   "property": "C152",
   "status": "partial",
   "theorems": [
    "C152_parsed_partial",
    "C152_escape_refuted",
    "C152_escape_always",
    "C152_padding_refuted"
   ],
   "note": "False in the code: re.split puts an empty string between adjacent brackets, so each text with an escaped opening bracket is refused (C152_escape_refuted, C152_escape_always); the leading zero is dropped (C152_padding_refuted). Proved for texts without brackets (C152_parsed_partial)."
  },
  {
   "property": "C153",
   "status": "partial",
   "theorems": [
    "C153_pending",
    "C153_delivered_partial",
    "C153_delivered_refuted"
   ],
   "note": "The pending flag is proved (C153_pending). The delivery is false in the code: valid of the exception does not depend on the pending flag, an exception raised for one cycle is forgotten when the handler becomes ready (C153_delivered_refuted). Proved if the condition is kept until the handler is ready (C153_delivered_partial)."
  },
  {
   "property": "C154",
   "status": "partial",
   "theorems": [
    "C154_told_partial",
    "C154_progress",
    "C154_form_feed_refuted",
    "C154_rows_refuted"
   ],
   "note": "False in the code in two ways: form feed does not clear the counter of rows, so the next newline goes to a wrong line (C154_form_feed_refuted); the counter of rows wraps at a power of two, so e.g. with one row the newline jumps behind the display (C154_rows_refuted). Proved for a power of two of rows and form feeds on the first line (C154_told_partial) with the progress (C154_progress). Initialisation and pins of the display are not modelled."
  },
  {
   "property": "C155",
   "status": "proved",
   "theorems": [
    "C155_routed",
    "C155_address_space"
   ],
   "note": "Proved for maps inside of the address space with regions smaller than it; C155_address_space shows that a region behind the address space (which is not refused) takes accesses of another slave."
  },
  {
   "property": "C156",
   "status": "partial",
   "theorems": [
    "C156_sent_partial",
    "C156_progress",
    "C156_taken",
    "C156_stall",
    "C156_again_refuted",
    "C156_long_refuted"
   ],
   "note": "C156_sent_partial, C156_progress, C156_taken (a packet of at most buffer size - 2 words is taken) and C156_stall hold for all runs. C156_again_refuted: tx_success is ignored, a packet which failed is not sent again. C156_long_refuted: a buffer of the size of the packet can not take the packet (two words less fit) and the endpoint is blocked for ever."
  },
  {
   "property": "C157",
   "status": "partial",
   "theorems": [
    "C157_search",
    "C157_bytes",
    "C157_rom",
    "C157_endpoints_partial",
    "C157_sizes",
    "C157_accepted",
    "C157_type_refuted"
   ],
   "note": "Search, bytes, rom, presence and sizes of endpoints are proved for all bundles (C157_search, C157_bytes, C157_rom, C157_sizes, C157_accepted). C157_type_refuted: the type of the transfer is read from the synchronisation type, a bulk endpoint is reported as a control endpoint. C157_endpoints_partial is the whole table for bundles where both numbers are the same."
  },
  {
   "property": "C158",
   "status": "partial",
   "theorems": [
    "C158_answers_partial",
    "C158_bad_token_refuted",
    "C158_ping_refuted",
    "C158_lost_in_refuted",
    "C158_repeated_refuted",
    "C158_stalled_in_refuted"
   ],
   "note": "C158_answers_partial: all events (handshakes, data words with their PID, words to the endpoint) equal the required ones for all sequences of transactions within the guard all_served. Outside of it the code differs: C158_bad_token_refuted (token with an error answered by NAK), C158_ping_refuted (PING answered by presence of data to send), C158_lost_in_refuted (the number of the data advances without ACK of the host), C158_repeated_refuted (repeated data not acknowledged), C158_stalled_in_refuted (OUT answered by STALL if IN of the endpoint is stalled)."
  },
  {
   "property": "C159",
   "status": "partial",
   "theorems": [
    "C159_array_partial",
    "C159_start_partial",
    "C159_len_partial",
    "C159_wide_refuted",
    "C159_narrow_refuted",
    "C159_len_refuted"
   ],
   "note": "C159_array_partial, C159_start_partial: any number of memories and words per item, for memories with items of 8 bits. C159_wide_refuted: items of 16 bits are cut to 8 bits per memory. C159_narrow_refuted: a write to memories with narrower items raises an exception. C159_len_partial with words_per_item, C159_len_refuted without it (exception)."
  },
  {
   "property": "C160",
   "status": "partial",
   "theorems": [
    "C160_read_partial",
    "C160_doc_refuted",
    "C160_silent_refuted"
   ],
   "note": "C160_read_partial for all texts within the guard readable (a coefficient follows its sign without spaces, except + 1, and a coefficient after + does not start with 1). C160_doc_refuted: the example of the documentation, 7x^2 + 6x - 5, raises an exception. C160_silent_refuted: x^2+12x is read with coefficient 1 of x."
  },
  {
   "property": "C161",
   "status": "partial",
   "theorems": [
    "C161_reset",
    "C161_chirp_after_se0",
    "C161_high_partial",
    "C161_full",
    "C161_keep",
    "C161_again_full",
    "C161_again_high_partial",
    "C161_long_chirp_refuted",
    "C161_no_chirp_j_refuted"
   ],
   "note": "Reset detection, chirp only after SE0, full speed, keeping of the speed and restart are proved for all line histories. C161_high_partial: six changes of the line select high speed. C161_no_chirp_j_refuted: they do not need to be chirps K and J (SE0 and K are enough). C161_long_chirp_refuted: the chirp takes 5 ms if the reset ends in the cycle when the chirp starts."
  },
  {
   "property": "C162",
   "status": "partial",
   "theorems": [
    "C162_flat",
    "C162_tree_partial",
    "C162_order_refuted",
    "C162_container_refuted",
    "C162_child_refuted"
   ],
   "note": "C162_flat: proved for all monitors without a hierarchy. C162_tree_partial: proved for hierarchies in the order of registration whose last root has signals and no children and whose parents are not single signals. Each of these three conditions is needed: C162_order_refuted (values of other signals are shown), C162_container_refuted (data of children of the last root are not read), C162_child_refuted (child of a signal is not shown)."
  },
  {
   "property": "C163",
   "status": "partial",
   "theorems": [
    "C163_receive_partial",
    "C163_fragment_refuted",
    "C163_dribble_refuted"
   ],
   "note": "C163_receive_partial: proved for any sequence of frames with whole bytes, with at least 4 clocks behind each frame, and of frames with a wrong byte in the preamble or SFD. C163_fragment_refuted: after a frame which ended in its preamble the next correct frame is lost. C163_dribble_refuted: a frame with additional bits after the last byte never has last."
  },
  {
   "property": "C164",
   "status": "partial",
   "theorems": [
    "C164_vec_partial",
    "C164_vec_refuted",
    "C164_pop",
    "C164_strb_partial",
    "C164_strb_refuted",
    "C164_keep_refuted"
   ],
   "note": "C164_vec_partial: proved if no padding is directly before a signal; C164_vec_refuted: such padding is lost for every width. C164_pop: the selected mask is returned, proved for all choices. C164_strb_partial: strb of the selected choice if its strb and keep are the same. C164_strb_refuted: keep is returned as strb. C164_keep_refuted: the returned keep is of the last choice."
  },
  {
   "property": "C165",
   "status": "partial",
   "theorems": [
    "C165_requests",
    "C165_ack_count",
    "C165_req_handshake",
    "C165_ack_handshake",
    "C165_ack_partial",
    "C165_single_refuted",
    "C165_three_refuted"
   ],
   "note": "C165_requests: proved for all schedules. C165_req_handshake and C165_ack_handshake: the exact clocks of transfers. C165_ack_count: the exact number of writeAck for each number of frames. C165_ack_partial: one writeAck for each structure if it has two frames. C165_single_refuted: a structure with one frame never has a writeAck (the meaning of the flag is inverted). C165_three_refuted: a structure with three frames has two."
  },
  {
   "property": "C166",
   "status": "partial",
   "theorems": [
    "C166_requests_partial",
    "C166_handshake",
    "C166_rem_partial",
    "C166_rem_refuted"
   ],
   "note": "C166_handshake: the exact clocks of requests. READ_ACK is True in the model; with the default the addresses pass a buffer before, which is not modelled here. The range of len is not proved. C166_requests_partial and C166_rem_partial: proved for frames of whole bytes and every schedule. C166_rem_refuted: for a frame which ends inside of the last byte of the word rem does not fit to its signal."
  },
  {
   "property": "C167",
   "status": "partial",
   "theorems": [
    "C167_write",
    "C167_extend_partial",
    "C167_extension_exists",
    "C167_extend_refuted"
   ],
   "note": "C167_write: proved for all widths and values; set priority of apply_set_and_clear (pyMathBitPrecise) is trusted. C167_extend_partial: the extension is right for 8 bits. C167_extend_refuted: for every other width above 0 the computed width is lower than the width of the signal, the padding has a negative width, which is an exception in the model (hwt is not in the sandbox)."
  },
  {
   "property": "C168",
   "status": "partial",
   "theorems": [
    "C168_read_partial",
    "C168_alias_refuted"
   ],
   "note": "C168_read_partial: proved unless ITEMS - 1 is a power of two. C168_alias_refuted: for ITEMS = 2^k + 1 the address of log2ceil(ITEMS - 1) bits can not address the last item and it is read as the item 0."
  },
  {
   "property": "C169",
   "status": "proved",
   "theorems": [
    "C169_frames",
    "C169_clocks"
   ],
   "note": "C169_frames and C169_clocks: proved for all schedules with one hot selects (the interface is selectOneHot)."
  },
  {
   "property": "C170",
   "status": "partial",
   "theorems": [
    "C170_frames_partial",
    "C170_accept_partial",
    "C170_progress_partial",
    "C170_lockup_refuted"
   ],
   "note": "C170_frames_partial, C170_accept_partial and C170_progress_partial: proved if discard comes only while dataOut is valid and not ready and not together with the last word. C170_lockup_refuted: a discard in the clock in which the last cell of the memory is read locks the input of an empty fifo until another discard. A discard together with the last word and other discards while the fifo is read are not decided."
  }
 ]
}