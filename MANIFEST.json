{
 "claims": [
  {
   "property": "C01",
   "status": "proved",
   "theorems": [
    "C01_tmds_loopback"
   ],
   "note": ""
  },
  {
   "property": "C02",
   "status": "proved",
   "theorems": [
    "C02_dc_balance"
   ],
   "note": ""
  },
  {
   "property": "C03",
   "status": "proved",
   "theorems": [
    "C03_transition_minimised"
   ],
   "note": ""
  },
  {
   "property": "C04",
   "status": "proved",
   "theorems": [
    "C04_encoder_is_dvi"
   ],
   "note": ""
  },
  {
   "property": "C05",
   "status": "proved",
   "theorems": [
    "C05_decoding_exact"
   ],
   "note": ""
  },
  {
   "property": "C06",
   "status": "proved",
   "theorems": [
    "C06_lock_needs_evidence"
   ],
   "note": ""
  },
  {
   "property": "C07",
   "status": "proved",
   "theorems": [
    "C07_lock_acquired"
   ],
   "note": ""
  },
  {
   "property": "C08",
   "status": "proved",
   "theorems": [
    "C08_lock_stable"
   ],
   "note": ""
  },
  {
   "property": "C09",
   "status": "proved",
   "theorems": [
    "C09_legal_words_no_error"
   ],
   "note": ""
  },
  {
   "property": "C10",
   "status": "partial",
   "theorems": [
    "C10_published_count_partial",
    "C10_published_count_refuted"
   ],
   "note": "Refuted for every period length: the word examined in the clock that publishes a period is never counted. The partial theorem gives the exact count of all the other words."
  },
  {
   "property": "C11",
   "status": "proved",
   "theorems": [
    "C11_skew_removed"
   ],
   "note": ""
  },
  {
   "property": "C12",
   "status": "proved",
   "theorems": [
    "C12_aligned_forever"
   ],
   "note": ""
  },
  {
   "property": "C13",
   "status": "proved",
   "theorems": [
    "C13_flag_meaning"
   ],
   "note": ""
  },
  {
   "property": "C14",
   "status": "proved",
   "theorems": [
    "C14_dvi_mode_de"
   ],
   "note": ""
  },
  {
   "property": "C15",
   "status": "proved",
   "theorems": [
    "C15_hdmi_de"
   ],
   "note": ""
  },
  {
   "property": "C16",
   "status": "partial",
   "theorems": [
    "C16_de_covers_line_partial",
    "C16_de_alignment_refuted",
    "C16_guard_coloured_pixel_refuted"
   ],
   "note": "Refuted twice: in HDMI mode DE comes two clocks after the words but the words are delayed by one clock only, so in every line the first pixel is presented with DE low and the control word after the last pixel with DE high; and a line whose first pixel is (B,G,R)=(0xAB,0x55,0xAB), which is transmitted as the guard band words, loses that pixel. The partial theorem: DE is exactly the pixel period two clocks later for every other line."
  },
  {
   "property": "C17",
   "status": "proved",
   "theorems": [
    "C17_terc4_nibbles"
   ],
   "note": ""
  },
  {
   "property": "C18",
   "status": "proved",
   "theorems": [
    "C18_sync_polarity"
   ],
   "note": ""
  },
  {
   "property": "C19",
   "status": "proved",
   "theorems": [
    "C19_hres"
   ],
   "note": ""
  },
  {
   "property": "C20",
   "status": "proved",
   "theorems": [
    "C20_vres"
   ],
   "note": ""
  },
  {
   "property": "C21",
   "status": "partial",
   "theorems": [
    "C21_words_are_pixels_partial",
    "C21_pack_factor_one_refuted"
   ],
   "note": "Proved for every power-of-two pack factor >= 2. Refuted for pack factor 1, which the code accepts: every second pixel is dropped."
  },
  {
   "property": "C22",
   "status": "partial",
   "theorems": [
    "C22_sof_partial",
    "C22_sof_after_short_group_refuted"
   ],
   "note": "Refuted whenever the previous frame leaves F-1 pixels in the packer: a stale word is pushed with sof=1 and the first word of the frame has sof=0. The partial theorem covers all other frames (in particular frames with a multiple of F pixels)."
  },
  {
   "property": "C23",
   "status": "proved",
   "theorems": [
    "C23_overflow_flag"
   ],
   "note": "Flag in the pixel clock domain; the clock-domain crossing to the CSR is not modelled here."
  },
  {
   "property": "C24",
   "status": "proved",
   "theorems": [
    "C24_frame_written"
   ],
   "note": ""
  },
  {
   "property": "C25",
   "status": "partial",
   "theorems": [
    "C25_writes_in_buffer_partial",
    "C25_zero_size_refuted"
   ],
   "note": "Refuted for a frame size below one memory word, which includes the reset value 0: the writer then covers the whole address space. The partial theorem covers every other frame size."
  },
  {
   "property": "C26",
   "status": "proved",
   "theorems": [
    "C26_slot_handover"
   ],
   "note": ""
  },
  {
   "property": "C27",
   "status": "proved",
   "theorems": [
    "C27_starts_at_sof"
   ],
   "note": ""
  },
  {
   "property": "C28",
   "status": "proved",
   "theorems": [
    "C28_random_read"
   ],
   "note": "For memory sizes that are a power of two (all sizes the class is used with); bus levels are those seen at the sampling clocks, low phases contain at least two samples, of which the last shows the bit. C133 has the levels at the pins."
  },
  {
   "property": "C29",
   "status": "proved",
   "theorems": [
    "C29_other_address"
   ],
   "note": ""
  },
  {
   "property": "C30",
   "status": "partial",
   "theorems": [
    "C30_recovers_at_pins_partial",
    "C30_bus_recovers_partial",
    "C30_released_partial",
    "C30_hpd_drop_hangs_refuted",
    "C30_short_low_hangs_refuted"
   ],
   "note": "Refuted twice: dropping hpd_en while the slave sends a 0 leaves SDA low for ever, whatever the master or software does afterwards; and with hpd_en high all the time, an SCL low phase that contains a single sample makes the slave take its own falling edge for a start condition, with the same result. The partial theorems: with hpd_en high and low phases of two samples or more, ten clocks always free the bus and the slave releases SDA when it is not selected. C30_recovers_at_pins_partial says the same in clocks at the pins: low phases of 128 clocks or more."
  },
  {
   "property": "C31",
   "status": "proved",
   "theorems": [
    "C31_timing_geometry",
    "C31_every_clock_is_a_point"
   ],
   "note": ""
  },
  {
   "property": "C32",
   "status": "proved",
   "theorems": [
    "C32_stall_independent",
    "C32_delivered_sequence"
   ],
   "note": ""
  },
  {
   "property": "C33",
   "status": "proved",
   "theorems": [
    "C33_request_once_per_frame",
    "C33_requests_counted"
   ],
   "note": ""
  },
  {
   "property": "C34",
   "status": "proved",
   "theorems": [
    "C34_frame_read_contiguously",
    "C34_prefix",
    "C34_repeats"
   ],
   "note": ""
  },
  {
   "property": "C35",
   "status": "proved",
   "theorems": [
    "C35_displayed_words"
   ],
   "note": ""
  },
  {
   "property": "C36",
   "status": "partial",
   "theorems": [
    "C36_every_schedule_partial",
    "C36_raw_order_refuted",
    "C36_raw_order_partial"
   ],
   "note": "false of the code: in blanking the output does not wait for a raw word, so words slip (C36_raw_order_refuted); holds while the DMA always has a word (C36_raw_order_partial). For every schedule the words come in order without loss, and exactly the blanking clocks without a word are transferred beside them (C36_every_schedule_partial)."
  },
  {
   "property": "C37",
   "status": "partial",
   "theorems": [
    "C37_tear_bounded_partial",
    "C37_constant_parameters_partial",
    "C37_tearing_refuted"
   ],
   "note": "false of the code: the reader restarts with the old parameters and follows a base change in mid-frame (C37_tearing_refuted); with constant parameters every displayed pixel (f,y,x) is word base+y*hres+x (C37_constant_parameters_partial); with a changing base the frame's first T pixels, T the words outstanding at the frame change and at most the reader's depth, are of the old picture and all others of the new (C37_tear_bounded_partial)"
  },
  {
   "property": "C38",
   "status": "proved",
   "theorems": [
    "C38_counter_exact",
    "C38_zero_while_disabled",
    "C38_status_holds_last_update",
    "C38_status_zero_before_update"
   ],
   "note": ""
  },
  {
   "property": "C39",
   "status": "partial",
   "theorems": [
    "C39_one_clock_late_partial",
    "C39_alignment_refuted"
   ],
   "note": "False of the code: the sync signals are delayed by 6 clocks but the pixels by 7, so DE comes one clock before the first pixel and the last pixel of every line is presented with DE low. The partial theorem gives the exact position of every pixel and sync signal."
  },
  {
   "property": "C40",
   "status": "partial",
   "theorems": [
    "C40_rgb2ycbcr_stream_partial",
    "C40_ycbcr2rgb_stream_partial",
    "C40_stable_while_stalled_partial",
    "C40_latency_partial",
    "C40_downsampler_gaps_refuted",
    "C40_downsampler_luma_partial"
   ],
   "note": "Proved for RGB2YCbCr and YCbCr2RGB (stream, stability, latency) and stability for every pipelined stage. False for 444to422 when the input stream has gaps (C40_downsampler_gaps_refuted): its pair position advances on empty slots. Even then no pixel is lost, repeated or reordered and its luma is right (C40_downsampler_luma_partial)."
  },
  {
   "property": "C41",
   "status": "proved",
   "theorems": [
    "C41_datapath",
    "C41_no_overflow"
   ],
   "note": ""
  },
  {
   "property": "C42",
   "status": "proved",
   "theorems": [
    "C42_accuracy"
   ],
   "note": ""
  },
  {
   "property": "C43",
   "status": "proved",
   "theorems": [
    "C43_datapath",
    "C43_no_overflow"
   ],
   "note": ""
  },
  {
   "property": "C44",
   "status": "proved",
   "theorems": [
    "C44_round_trip",
    "C44_round_trip_unsaturated"
   ],
   "note": "17 steps in general (the bound is reached through saturation of luma), 3 steps for colours that do not saturate."
  },
  {
   "property": "C45",
   "status": "partial",
   "theorems": [
    "C45_downsampling_datapath",
    "C45_downsampling_stream_partial",
    "C45_gaps_refuted",
    "C45_every_schedule_partial"
   ],
   "note": "Every consumer stall schedule, for a line that the producer delivers without gaps, whatever comes before and after it and with the last pair included (C45_downsampling_stream_partial); with gaps inside the line the pairs are wrong (C45_gaps_refuted). The exact output under every schedule, gaps included, is C45_every_schedule_partial."
  },
  {
   "property": "C46",
   "status": "proved",
   "theorems": [
    "C46_upsampling",
    "C46_no_deadlock",
    "C46_offers_complete_pairs"
   ],
   "note": ""
  },
  {
   "property": "C47",
   "status": "partial",
   "theorems": [
    "C47_pixel_partial",
    "C47_every_encoding_partial",
    "C47_one_refuted"
   ],
   "note": "Proved for every encoding below 1.0 (0x0000-0x3BFF) and every handshake; false for 1.0 itself, which gives pixel 0 (C47_one_refuted). Every other encoding is described exactly: 1.0 and above, infinities and NaN give 0, and the sign is ignored (C47_every_encoding_partial)."
  },
  {
   "property": "C48",
   "status": "partial",
   "theorems": [
    "C48_lookup_partial",
    "C48_datapath_refuted",
    "C48_datapath_actual",
    "C48_zero_refuted"
   ],
   "note": "The lookup implementation is exact and invertible for every pixel. The datapath used by the RGB actor sets the sign bit, so every pixel converts to a negative half (C48_datapath_refuted, C48_zero_refuted)."
  },
  {
   "property": "C49",
   "status": "proved",
   "theorems": [
    "C49_leading_one",
    "C49_zero"
   ],
   "note": ""
  },
  {
   "property": "C50",
   "status": "partial",
   "theorems": [
    "C50_changing_operands_partial",
    "C50_product_partial",
    "C50_stream_refuted",
    "C50_constant_refuted"
   ],
   "note": "The stage-4 shift uses the product of the following pair. Proved when the next pipeline slot carries the same operands and the product is zero, at least 2^-13, or below 2^-14 with biased exponents summing to at most 15; for all other equal operands the exact wrong result is given (zero, as for 1.0 * 2^-15, or the product less 2^-14). With changing operands the result is right whenever the next slot's significands have the same product, and for products from 2^-13 on its exponent is always right and its fraction is that of the next product, exactly as C50_changing_operands_partial says. False for changing operands (C50_stream_refuted) and for some constant operands with products in [2^-14, 2^-13) (C50_constant_refuted). Shifts by a negative amount use the unsigned 7-bit amount of the generated Verilog."
  },
  {
   "property": "C51",
   "status": "partial",
   "theorems": [
    "C51_sum_partial",
    "C51_zero_refuted",
    "C51_subnormal_refuted",
    "C51_second_subnormal_partial"
   ],
   "note": "Proved (result is the exactly truncated sum) when the second operand is normal, or zero with a normal first operand. The remaining operands are described exactly: a subnormal second operand counts half, and two subnormals whose sum, counted so, is below 2^-14 always give a wrong result (C51_second_subnormal_partial). False for 0+0 (gives 2^-13) and for a normal plus a subnormal second operand (C51_zero_refuted, C51_subnormal_refuted)."
  },
  {
   "property": "C52",
   "status": "proved",
   "theorems": [
    "C52_colour_bars",
    "C52_lines",
    "C52_short_lines"
   ],
   "note": ""
  },
  {
   "property": "C53",
   "status": "partial",
   "theorems": [
    "C53_exact_data_partial",
    "C53_stable_after_one_clock_partial",
    "C53_data_changes_refuted",
    "C53_sequence_refuted"
   ],
   "note": "Refuted as stated: the data of a pattern source change while the consumer stalls, because the data register follows ready one clock late; proved: exact data as a function of the accepted count with that lag."
  },
  {
   "property": "C54",
   "status": "partial",
   "theorems": [
    "C54_vertical_lines_partial",
    "C54_dots_even_partial",
    "C54_dots_odd_columns_partial",
    "C54_dots_odd_refuted"
   ],
   "note": "The dot pattern is a checkerboard only when hres is even; for odd hres it degenerates to columns (refuted), both cases proved exactly."
  },
  {
   "property": "C55",
   "status": "partial",
   "theorems": [
    "C55_sync_partial",
    "C55_active_area",
    "C55_constant_period",
    "C55_documented_line_refuted",
    "C55_documented_timing_refuted"
   ],
   "note": "The generator counts 0..800, so a line takes 801 clocks instead of the documented 800 (front porch 17), and vertical sync falls one clock late in every frame but the first (refuted); the actual timing is proved exactly for all time."
  },
  {
   "property": "C56",
   "status": "proved",
   "theorems": [
    "C56_pixel_changing_ram",
    "C56_pixel",
    "C56_black_elsewhere"
   ],
   "note": ""
  },
  {
   "property": "C57",
   "status": "proved",
   "theorems": [
    "C57_ack",
    "C57_read",
    "C57_contents",
    "C57_no_other_address"
   ],
   "note": ""
  },
  {
   "property": "C58",
   "status": "proved",
   "theorems": [
    "C58_command",
    "C58_serialised"
   ],
   "note": ""
  },
  {
   "property": "C59",
   "status": "proved",
   "theorems": [
    "C59_s6_saturates",
    "C59_s7_saturates",
    "C59_flags_exclusive",
    "C59_s7_requests",
    "C59_s7_same_line"
   ],
   "note": ""
  },
  {
   "property": "C60",
   "status": "proved",
   "theorems": [
    "C60_output_gear",
    "C60_s7_output",
    "C60_input_gear",
    "C60_link"
   ],
   "note": ""
  },
  {
   "property": "C61",
   "status": "proved",
   "theorems": [
    "C61_pure_delay"
   ],
   "note": ""
  },
  {
   "property": "C62",
   "status": "proved",
   "theorems": [
    "C62_channel_end_to_end"
   ],
   "note": "Covers HDMI data islands and guard bands too, because those words are legal pixel words."
  },
  {
   "property": "C63",
   "status": "proved",
   "theorems": [
    "C63_data_island"
   ],
   "note": ""
  },
  {
   "property": "C64",
   "status": "partial",
   "theorems": [
    "C64_red_blue_swapped_partial",
    "C64_colours_unchanged_refuted"
   ],
   "note": "False of the code: red and blue are swapped for every colour (C64_red_blue_swapped_partial gives the exact result). Memory in between is assumed to return the captured 32-bit pixel."
  },
  {
   "property": "C65",
   "status": "proved",
   "theorems": [
    "C65_captured_pixels",
    "C65_nothing_else",
    "C65_packer"
   ],
   "note": ""
  },
  {
   "property": "C66",
   "status": "partial",
   "theorems": [
    "C66_restart",
    "C66_sync_cleared_by_stop_refuted"
   ],
   "note": "proved for de, hsync, vsync and the request (C66_restart); the last part is false: hsync/vsync keep their value through a stop (C66_sync_cleared_by_stop_refuted)"
  },
  {
   "property": "C67",
   "status": "partial",
   "theorems": [
    "C67_every_pixel_partial",
    "C67_frame_boundary_partial",
    "C67_frame_boundary_refuted"
   ],
   "note": "False of the code: pixels are delayed by eleven clocks but the start of frame is not, so a vsync edge within eleven clocks after a pixel moves that pixel to the next frame or drops it. C67_every_pixel_partial says for every pixel in which frame it is counted and when it is dropped."
  },
  {
   "property": "C68",
   "status": "proved",
   "theorems": [
    "C68_drp_ready"
   ],
   "note": ""
  },
  {
   "property": "C69",
   "status": "partial",
   "theorems": [
    "C69_signs_ignored_partial",
    "C69_signed_refuted"
   ],
   "note": "False: 1.0*(-1.0) gives 1.0 and 1.0+(-1.0) gives 2.0. Proved instead: outputs depend only on the operands' magnitudes."
  },
  {
   "property": "C70",
   "status": "proved",
   "theorems": [
    "C70_dvi_link",
    "C70_valid_means_aligned"
   ],
   "note": ""
  },
  {
   "property": "C71",
   "status": "proved",
   "theorems": [
    "C71_resolution_over_link"
   ],
   "note": ""
  },
  {
   "property": "C72",
   "status": "proved",
   "theorems": [
    "C72_frame_over_link"
   ],
   "note": ""
  },
  {
   "property": "C73",
   "status": "proved",
   "theorems": [
    "C73_delivered",
    "C73_nothing_else",
    "C73_close_commands_cancel"
   ],
   "note": ""
  },
  {
   "property": "C74",
   "status": "proved",
   "theorems": [
    "C74_executed",
    "C74_nothing_else",
    "C74_returns",
    "C74_hasty_software"
   ],
   "note": ""
  },
  {
   "property": "C75",
   "status": "partial",
   "theorems": [
    "C75_not_stale_partial",
    "C75_reported_partial",
    "C75_reported_refuted",
    "C75_two_clears_refuted",
    "C75_not_stale_refuted"
   ],
   "note": "Refuted as stated: a word lost in the pixel clocks before the clear arrives is cleared with it (C75_reported_refuted); two clears while the pixel clock is stopped mask the flag for ever (C75_two_clears_refuted); a clear before the previous one is through shows a stale flag (C75_not_stale_refuted). Proved when consecutive clears are three pixel clocks and then three system clocks apart: the flag is never stale, and a loss from the third pixel clock after the clear on is reported after three system clocks until the next clear."
  },
  {
   "property": "C76",
   "status": "proved",
   "theorems": [
    "C76_read",
    "C76_initial"
   ],
   "note": ""
  },
  {
   "property": "C77",
   "status": "proved",
   "theorems": [
    "C77_in_order",
    "C77_prompt",
    "C77_drop_means_full",
    "C77_held"
   ],
   "note": ""
  },
  {
   "property": "C78",
   "status": "proved",
   "theorems": [
    "C78_snapshots",
    "C78_held",
    "C78_effective_after_four",
    "C78_register_write",
    "C78_disabled",
    "C78_supplied",
    "C78_stale_for_four_frames",
    "C78_mixed_when_changed_while_enabled"
   ],
   "note": ""
  },
  {
   "property": "C79",
   "status": "proved",
   "theorems": [
    "C79_frame_in_memory",
    "C79_memory_to_memory"
   ],
   "note": ""
  },
  {
   "property": "C80",
   "status": "proved",
   "theorems": [
    "C80_one_pass_per_frame",
    "C80_every_frame",
    "C80_edge_during_pass_ignored"
   ],
   "note": ""
  },
  {
   "property": "C81",
   "status": "partial",
   "theorems": [
    "C81_aligned_partial",
    "C81_shift_kept_partial",
    "C81_enabled_mid_frame_refuted"
   ],
   "note": "Refuted: enabled in the middle of an incoming frame the output reads a pass before the first pixels want it and every frame is shifted. Proved: aligned for ever if no word is left over at one frame start and no pixel finds the queue empty; with u words left over every later frame is shifted by exactly u pixels."
  },
  {
   "property": "C82",
   "status": "proved",
   "theorems": [
    "C82_first_parameters_for_ever"
   ],
   "note": ""
  },
  {
   "property": "C83",
   "status": "partial",
   "theorems": [
    "C83_vga_pins_partial",
    "C83_black_in_blanking_refuted"
   ],
   "note": "Refuted for blanking: nothing blanks the VGA colour pins, they carry the colours of the next pixel (an analogue monitor takes its black level there). The rest, and exactly which pixel is on the pins in blanking, is proved."
  },
  {
   "property": "C84",
   "status": "partial",
   "theorems": [
    "C84_stretched_partial",
    "C84_sync_period_refuted"
   ],
   "note": "Refuted: the PHYs ignore valid and the timing generator stalls when a pixel is missing, so each underflow lengthens the line at the connector by one clock. Proved exactly: the stream at clock n is the undisturbed one at clock n minus the underflows so far, with the right pixel whenever memory has one."
  },
  {
   "property": "C85",
   "status": "proved",
   "theorems": [
    "C85_frames_after_startup",
    "C85_memory_to_memory"
   ],
   "note": ""
  },
  {
   "property": "C86",
   "status": "proved",
   "theorems": [
    "C86_window",
    "C86_s7_link"
   ],
   "note": ""
  },
  {
   "property": "C87",
   "status": "proved",
   "theorems": [
    "C87_dvi_mode"
   ],
   "note": ""
  },
  {
   "property": "C88",
   "status": "partial",
   "theorems": [
    "C88_only_after_guard_partial",
    "C88_dvi_source_refuted"
   ],
   "note": "Refuted: DE comes only after a guard band. Proved for everything that can be received: out of reset with the DVI-mode register 0, DE is preceded by a clock in which the output colours are (0xAB,0x55,0xAB), the colours the guard band words decode to; a DVI source that the hdmi=False receiver shows and this one never does is given."
  },
  {
   "property": "C89",
   "status": "proved",
   "theorems": [
    "C89_memory_to_memory_422"
   ],
   "note": ""
  },
  {
   "property": "C90",
   "status": "proved",
   "theorems": [
    "C90_registers_to_screen",
    "C90_registers_to_memory",
    "C90_starts"
   ],
   "note": ""
  },
  {
   "property": "C91",
   "status": "partial",
   "theorems": [
    "C91_restart_refuted",
    "C91_restart_partial",
    "C91_restart_exact_partial"
   ],
   "note": "Refuted: a frame reader that had begun to prefetch the next picture may still be at work when the output is enabled again; the picture is then shown shifted, for ever. Partial: the scan is always right from its first clock on and every pixel shown is given exactly from the reader's state when the new set arrives (position in the picture and words on their way), after any legal earlier sets; and the picture is aligned if the reader is at rest. Missing: nothing but the alignment that the code does not provide."
  },
  {
   "property": "C92",
   "status": "proved",
   "theorems": [
    "C92_default_edid"
   ],
   "note": ""
  },
  {
   "property": "C93",
   "status": "proved",
   "theorems": [
    "C93_raw_words",
    "C93_raw_stretch"
   ],
   "note": ""
  },
  {
   "property": "C94",
   "status": "proved",
   "theorems": [
    "C94_no_loss",
    "C94_no_loss_clocks"
   ],
   "note": ""
  },
  {
   "property": "C95",
   "status": "proved",
   "theorems": [
    "C95_capture_completes"
   ],
   "note": ""
  },
  {
   "property": "C96",
   "status": "proved",
   "theorems": [
    "C96_registers_to_slot",
    "C96_registers_to_slot_422"
   ],
   "note": ""
  },
  {
   "property": "C97",
   "status": "proved",
   "theorems": [
    "C97_lines",
    "C97_link",
    "C97_registers_to_slot_422",
    "C97_registers_to_slot"
   ],
   "note": ""
  },
  {
   "property": "C98",
   "status": "proved",
   "theorems": [
    "C98_slot_served"
   ],
   "note": ""
  },
  {
   "property": "C99",
   "status": "partial",
   "theorems": [
    "C99_every_slot_served_refuted",
    "C99_every_slot_served_partial"
   ],
   "note": "The statement is refuted for a third slot: the lowest loaded slot is always chosen, so software that reloads slots 0 and 1 as they are filled starves slot 2. Slots 0 and 1 are always served whatever the number of slots (C98); C99_every_slot_served_partial is that. C153 and C154 say what holds for the other slots."
  },
  {
   "property": "C100",
   "status": "proved",
   "theorems": [
    "C100_irq_level",
    "C100_acknowledge",
    "C100_irq_comes",
    "C100_irq_means_captured"
   ],
   "note": ""
  },
  {
   "property": "C101",
   "status": "proved",
   "theorems": [
    "C101_whole_words",
    "C101_current",
    "C101_slow_reader"
   ],
   "note": ""
  },
  {
   "property": "C102",
   "status": "proved",
   "theorems": [
    "C102_tap_read",
    "C102_steps"
   ],
   "note": ""
  },
  {
   "property": "C103",
   "status": "partial",
   "theorems": [
    "C103_only_measured_refuted",
    "C103_settled_partial",
    "C103_resolution_read_partial"
   ],
   "note": "The first sentence is refuted: the registers are copied bit by bit, so a reading at a change may mix two measurements (three and four pixels read as seven). Partial: a measurement that stands for two system clocks is read, and the second sentence in full (C103_resolution_read_partial)."
  },
  {
   "property": "C104",
   "status": "proved",
   "theorems": [
    "C104_s6_exclusive",
    "C104_s7_exclusive",
    "C104_reported"
   ],
   "note": "The race is taken on the two flags; races on the bits behind their gates are in C124."
  },
  {
   "property": "C105",
   "status": "proved",
   "theorems": [
    "C105_underflow_read"
   ],
   "note": ""
  },
  {
   "property": "C106",
   "status": "proved",
   "theorems": [
    "C106_ratios"
   ],
   "note": ""
  },
  {
   "property": "C107",
   "status": "partial",
   "theorems": [
    "C107_vco_refuted",
    "C107_vco_partial"
   ],
   "note": "False at 74.25 MHz, which the code accepts (MMCM at 371.25 MHz, PLL at 742.5 MHz), and for the transmitter (1500 MHz). C107_vco_partial gives exactly the input frequencies (and transmitter base clocks) that are legal; the default 148.5 MHz is."
  },
  {
   "property": "C108",
   "status": "proved",
   "theorems": [
    "C108_after_lock"
   ],
   "note": ""
  },
  {
   "property": "C109",
   "status": "proved",
   "theorems": [
    "C109_half_to_pixel",
    "C109_pixel_to_half",
    "C109_decode"
   ],
   "note": ""
  },
  {
   "property": "C110",
   "status": "proved",
   "theorems": [
    "C110_pack_unpack",
    "C110_unpack_pack"
   ],
   "note": ""
  },
  {
   "property": "C111",
   "status": "partial",
   "theorems": [
    "C111_chain_partial",
    "C111_bench_partial",
    "C111_bench_refuted",
    "C111_luma_partial",
    "C111_no_deadlock_partial"
   ],
   "note": "False as the bench connects the chain: the downsampler has a first input that the bench (and the stream wrapper) leaves undriven, so an image that starts in an odd clock is paired wrongly, with blue and red differences exchanged. Proved: with first driven and an even number of pixels before; as in the bench, when the image starts in an even clock; luma, bound and absence of deadlock always."
  },
  {
   "property": "C112",
   "status": "proved",
   "theorems": [
    "C112_loop"
   ],
   "note": ""
  },
  {
   "property": "C113",
   "status": "proved",
   "theorems": [
    "C113_frames_while_moving",
    "C113_double_buffer"
   ],
   "note": "the theorem tells which word of memory each pixel is; the contents of memory are taken as constant. Four frames are needed because the FIFO of parameter sets is four deep and always full; ex_sw_tight reaches the bound"
  },
  {
   "property": "C114",
   "status": "proved",
   "theorems": [
    "C114_default_is_a_case",
    "C114_rgb2ycbcr",
    "C114_ycbcr2rgb",
    "C114_coefficients",
    "C114_wider_output_wraps",
    "C114_wider_rgb_wraps",
    "C114_accuracy",
    "C114_inverse_accuracy",
    "C114_rgb2ycbcr_stream",
    "C114_ycbcr2rgb_stream"
   ],
   "note": "Python's float arithmetic is modelled with the standard library's SpecFloat (no axioms). 2**cw times a float is written exactly; the literal reading was checked equal for every cw up to 1000 (coef_float_agrees)."
  },
  {
   "property": "C115",
   "status": "proved",
   "theorems": [
    "C115_round_trip"
   ],
   "note": "The upper limit of 40 bits comes from the precision of the floats the coefficients are computed with."
  },
  {
   "property": "C116",
   "status": "proved",
   "theorems": [
    "C116_registers_to_slot",
    "C116_registers_to_slot_422",
    "C116_lock",
    "C116_lock_to_slot"
   ],
   "note": ""
  },
  {
   "property": "C117",
   "status": "proved",
   "theorems": [
    "C117_sync_registers",
    "C117_lock_reported_with_evidence"
   ],
   "note": ""
  },
  {
   "property": "C118",
   "status": "proved",
   "theorems": [
    "C118_raw_words",
    "C118_gaps",
    "C118_every_pass",
    "C118_playback"
   ],
   "note": ""
  },
  {
   "property": "C119",
   "status": "proved",
   "theorems": [
    "C119_never_underflows",
    "C119_lock_to_slot"
   ],
   "note": ""
  },
  {
   "property": "C120",
   "status": "proved",
   "theorems": [
    "C120_pairs",
    "C120_registers_to_screen",
    "C120_registers_to_slot"
   ],
   "note": "C120_pairs holds for any core output with gaps; C120_registers_to_screen and C120_registers_to_slot put it after the registers and before the link. Column 0 of the received picture is left open: it shows the value the converter held before the line (see C39)."
  },
  {
   "property": "C121",
   "status": "proved",
   "theorems": [
    "C121_address_register",
    "C121_word_address",
    "C121_programmed_buffer"
   ],
   "note": "C121_address_register is per field, so it covers accesses narrower than the register; C121_programmed_buffer replaces the address read from the state in C98 by the value software wrote. A completed capture overwrites the register with the end address (C26), so it has to be written before each load."
  },
  {
   "property": "C122",
   "status": "proved",
   "theorems": [
    "C122_executed",
    "C122_undisturbed",
    "C122_steps",
    "C122_returns",
    "C122_one_bit_not_enough"
   ],
   "note": "The joint model projects onto the one-line circuit of C74 for each line; C122_one_bit_not_enough shows why both bits matter. The toggles of one write are sampled alike at a common edge (for Series 7, C128 gives every toggle its own race)."
  },
  {
   "property": "C123",
   "status": "partial",
   "theorems": [
    "C123_delivered_partial",
    "C123_nothing_else_partial",
    "C123_resets_arrive_refuted"
   ],
   "note": "False: resets do not raise the busy bits, so two resets written within one clock of pix2x cancel (C123_resets_arrive_refuted). C123_delivered_partial: a reset with no other reset of the same line in its clock of pix2x arrives at the third edge; C123_nothing_else_partial: the line is not reset otherwise."
  },
  {
   "property": "C124",
   "status": "partial",
   "theorems": [
    "C124_reading_partial",
    "C124_true_readings_refuted",
    "C124_s7_true_readings_refuted",
    "C124_s7_reading_partial"
   ],
   "note": "False because the flags are gates on the accumulator bits and are synchronised without a register before them: at a system clock edge on the step 128 -> 127 the mixture of old and new bits can be 255, and software reads 'too late' after one 'too early' vote (C124_true_readings_refuted, C124_s7_true_readings_refuted). What remains (C124_reading_partial): a limit reached since the reset is read, and a reading of one side means that the net vote was not on the other side. C104 takes the race on the flags themselves."
  },
  {
   "property": "C125",
   "status": "proved",
   "theorems": [
    "C125_no_tearing",
    "C125_no_tearing_422",
    "C125_new_picture",
    "C125_new_picture_422"
   ],
   "note": "Composes C113 (moving base), the link of C116, the packing of C72/C89 and C98/C121 (slots in turn). The hypotheses about underflow are those of C116: none after clock T (C119 derives this from a memory rate for a fixed base). Slots 2 and up can starve (C99)."
  },
  {
   "property": "C126",
   "status": "proved",
   "theorems": [
    "C126_never_underflows",
    "C126_lock_no_tearing",
    "C126_lock_no_tearing_422",
    "C126_lock_new_picture",
    "C126_lock_new_picture_422"
   ],
   "note": "Composes C119 (generalised to a moving base), C116 (lock) and C125. The memory limits are hypotheses (memory_keeps_up), as in C119."
  },
  {
   "property": "C127",
   "status": "partial",
   "theorems": [
    "C127_frame_by_frame_partial",
    "C127_settles_partial",
    "C127_half_written_refuted",
    "C127_small_picture_refuted"
   ],
   "note": "False in general. C127_half_written_refuted: the registers hold a whole set before and after, but the FIFO takes one entry while they are being written; afterwards every pixel is displaced for ever, because reader and scan count different numbers of words in that one frame and nothing realigns them. C127_small_picture_refuted: a picture that fits into the reader's buffer, with whole sets only, is displaced for ever as well. What remains: C127_frame_by_frame_partial and C127_settles_partial, for runs in which every set offered is whole (length = hres*vres), larger than the buffer and not shorter than four sys edges."
  },
  {
   "property": "C128",
   "status": "proved",
   "theorems": [
    "C128_taps_now",
    "C128_settled",
    "C128_distance",
    "C128_next_edge_lost",
    "C128_two_bits"
   ],
   "note": "C102 has one line and samples the toggles of one write alike; here every toggle has its own race. C128_next_edge_lost and C128_two_bits show that the two conditions are needed. The delay line's tap is a five-bit counter with load, up and down, as in C102."
  },
  {
   "property": "C129",
   "status": "proved",
   "theorems": [
    "C129_new_mode",
    "C129_new_mode_422"
   ],
   "note": "Restricted by its statement to changes whose every taken set is whole (C127 refutes the rest) and to runs without underflow from n2 on. The link is the parallel-word level of C95/C98 (word streams delayed by bits per pair); TMDS data islands are not transmitted by this output."
  },
  {
   "property": "C130",
   "status": "proved",
   "theorems": [
    "C130_pixel",
    "C130_black",
    "C130_settled",
    "C130_built",
    "C130_power_up",
    "C130_test_image"
   ],
   "note": "Composes C55-C57: TerminalModel.v has the two sides, TermTopModel.v joins them over two clocks (a byte written at the edge at which it is read may be old or new bit by bit). TermFiles.v holds the two shipped files byte by byte. get_path's search for the file is not modelled; the argument is the contents found."
  },
  {
   "property": "C131",
   "status": "proved",
   "theorems": [
    "C131_hdmi_source",
    "C131_sizes",
    "C131_capture",
    "C131_line"
   ],
   "note": "The source is specified by HdmiSrcSpec.v (HDMI 1.3, 5.2) independently of the receiver. C16 refutes that data enable and colours are aligned; here the exact picture that results is followed to the capture. C131_hdmi_source gives the outputs; C131_sizes and C131_capture hold for any outputs of that form; C131_line reads off one line. A first pixel coded by the three guard band words is excluded by hypothesis (see C16)."
  },
  {
   "property": "C132",
   "status": "proved",
   "theorems": [
    "C132_islands",
    "C132_read_by_flag"
   ],
   "note": "Same source specification as C131. C132_islands gives flags and nibbles clock by clock; C132_read_by_flag draws the consequence for a reader that samples the nibbles while the data flag is high."
  },
  {
   "property": "C133",
   "status": "partial",
   "theorems": [
    "C133_pins_partial",
    "C133_short_setup_refuted"
   ],
   "note": "False of the code: SDA may fall and SCL rise between two samples of the bus (64 clocks apart), which the slave takes for a start condition (C133_short_setup_refuted: a master within the standard whose offset is not acknowledged). True if SDA is steady for 64 clocks before SCL rises, with SCL low for 128, high for 64 and starts of 64 clocks (C133_pins_partial), for every other freedom of the claim."
  },
  {
   "property": "C134",
   "status": "proved",
   "theorems": [
    "C134_every_pinout"
   ],
   "note": ""
  },
  {
   "property": "C135",
   "status": "partial",
   "theorems": [
    "C135_pass_partial",
    "C135_late_start_partial",
    "C135_empty_frame_partial",
    "C135_outside_refuted"
   ],
   "note": "False of the code: the reader stops only when its offset equals length-1, so a delay_base at or above the length (both in words) makes it read the rest of the memory first (C135_outside_refuted, C135_late_start_partial), and a length of 0 never ends (C135_empty_frame_partial). C135_pass_partial gives the words and the end of the pass exactly for every delay, and that they lie in the buffer when the delay is below the length."
  },
  {
   "property": "C136",
   "status": "partial",
   "theorems": [
    "C136_any_size_partial",
    "C136_two_frames_refuted"
   ],
   "note": "False of the code for a frame size above the incoming frame: C136_two_frames_refuted. C136_any_size_partial gives the contents of the filled slot exactly for every size, and one frame only when the size is at most the frame."
  },
  {
   "property": "C137",
   "status": "proved",
   "theorems": [
    "C137_hdmi_to_slot"
   ],
   "note": ""
  },
  {
   "property": "C138",
   "status": "proved",
   "theorems": [
    "C138_hdmi_to_slot_422"
   ],
   "note": "Pixels that follow each other in a pair are those delivered beside data enable, i.e. the pixel after each one (C131). C67 shows what happens when vsync rises within the eleven clocks."
  },
  {
   "property": "C139",
   "status": "proved",
   "theorems": [
    "C139_pictures_in_order"
   ],
   "note": "Conditions are those of the record streaming of C98: software does not write registers of loaded slots, the memory keeps up. fr is existential; it is tied to the words written, to their order and to the time of arrival."
  },
  {
   "property": "C140",
   "status": "partial",
   "theorems": [
    "C140_next_picture_partial",
    "C140_every_picture_refuted"
   ],
   "note": "Refuted: sk_in is a run in which frame 5 is captured, slot 1 is loaded all the time, and the next capture holds frame 7. The partial theorem bounds the loss by one frame and gives two conditions under which nothing is missed. It also bounds the first frame captured after the DMA was idle."
  },
  {
   "property": "C141",
   "status": "proved",
   "theorems": [
    "C141_filled_soon"
   ],
   "note": ""
  },
  {
   "property": "C142",
   "status": "proved",
   "theorems": [
    "C142_continuous_capture"
   ],
   "note": "The bound on the gap between frames is the latency of C141. fl_in is a run that meets all hypotheses: two slots, software loads each again twelve clocks after it was filled, every frame is captured (ex_flow)."
  },
  {
   "property": "C143",
   "status": "proved",
   "theorems": [
    "C143_hdmi_video"
   ],
   "note": ""
  },
  {
   "property": "C144",
   "status": "proved",
   "theorems": [
    "C144_driver"
   ],
   "note": ""
  },
  {
   "property": "C145",
   "status": "proved",
   "theorems": [
    "C145_hdmi_video_422"
   ],
   "note": "Default mode of HDMIIn. Example: the source of C138 with the driver of C144, every picture from some picture on is stored."
  },
  {
   "property": "C146",
   "status": "proved",
   "theorems": [
    "C146_raw_genlock",
    "C146_waits",
    "C146_exact_clock"
   ],
   "note": "VideoOutCore with mode raw and a genlock stream, parameters as inputs. Example: the stream of C81_enabled_mid_frame_refuted, from reset."
  },
  {
   "property": "C147",
   "status": "proved",
   "theorems": [
    "C147_eager_software"
   ],
   "note": "The first captured frame is bounded: no later than the first frame that begins after two sys clocks of the software's activity. Example: the driver of C144 is such software."
  },
  {
   "property": "C148",
   "status": "proved",
   "theorems": [
    "C148_every_picture",
    "C148_every_picture_422"
   ],
   "note": "Examples: the sources of C137 and C138 with the driver of C144 from instant 6000 on; every picture from picture 2 on is stored."
  },
  {
   "property": "C149",
   "status": "proved",
   "theorems": [
    "C149_prompt_software",
    "C149_every_picture",
    "C149_every_picture_422"
   ],
   "note": "The software is any input sequence that meets prompt; polled is one (poll_prompt). ex_polled_picture meets all hypotheses."
  },
  {
   "property": "C150",
   "status": "proved",
   "theorems": [
    "C150_stocked_software",
    "C150_every_picture",
    "C150_every_picture_422"
   ],
   "note": "For every number of slots and every software that keeps to the bound, in closed loop with the whole capture chain; same bounds on clocks and memory as C94."
  },
  {
   "property": "C151",
   "status": "proved",
   "theorems": [
    "C151_one_capture_per_load"
   ],
   "note": "For arbitrary software, stream and memory. The DMA alone in its own clock, as C24-C27."
  },
  {
   "property": "C152",
   "status": "partial",
   "theorems": [
    "C152_marked_slot_partial",
    "C152_marked_slot_refuted"
   ],
   "note": "Refuted: if software writes EMPTY into the status of the slot in use while another slot is loaded, the capture goes on into the old buffer and the other slot, whose buffer was not written, is marked as filled (with the end of the old buffer as its address). C152_marked_slot_partial: without such a write the property holds whatever else software writes, including new addresses and loads of the slot in use; and with it, exactly the lowest other loaded slot is marked."
  },
  {
   "property": "C153",
   "status": "proved",
   "theorems": [
    "C153_bypass",
    "C153_served"
   ],
   "note": "The DMA alone in its own clock; it says how far C99 holds for slots from 2 on."
  },
  {
   "property": "C154",
   "status": "proved",
   "theorems": [
    "C154_loaded_slot_filled"
   ],
   "note": "Closes the gap between C98 (slots 0 and 1) and the refutation in C99 (slots from 2 on starve if lower slots are loaded for ever)."
  }
 ]
}