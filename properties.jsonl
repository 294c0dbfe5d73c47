{"id": "C01", "title": "TMDS loopback is lossless", "statement": "A pixel/control stream given to the HDMI output Encoder and taken back through the HDMI input Decoding stage over an ideal link is recovered exactly, five pixel clocks later: `de` equals the sent `de`; when `de` was 1 the 8-bit data is the sent data; when `de` was 0 the 2-bit control is the sent control.", "quantifier": "every infinite sequence of (d, c, de) inputs and every clock cycle, from power-on", "why_tests_cant": "the encoder carries a running disparity, so the emitted word depends on the whole history; 256 bytes times every history cannot be enumerated by a test bench", "anchors": ["litevideo/output/hdmi/encoder.py:Encoder", "litevideo/input/decoding.py:Decoding"]}
{"id": "C02", "title": "TMDS output is DC balanced", "statement": "Counting +1 for each 1 and -1 for each 0 emitted by the Encoder since the last control word, the total never leaves [-8, 8], and the encoder's own disparity register always equals that total (it never overflows its 6 bits).", "quantifier": "every input stream, every cycle", "why_tests_cant": "an imbalance accumulates over an unbounded number of pixels; a finite vector set cannot bound it", "anchors": ["litevideo/output/hdmi/encoder.py:Encoder"]}
{"id": "C03", "title": "Pixel words are transition-minimised and never alias a control word", "statement": "Every word the Encoder emits for de=1 has at most 5 transitions among its ten bits (at most 4 in the low nine) and differs from the four control words; every control word has at least 7 transitions.", "quantifier": "every input stream, every cycle, every running disparity", "why_tests_cant": "depends on history through the disparity register", "anchors": ["litevideo/output/hdmi/encoder.py:Encoder", "litevideo/output/hdmi/encoder.py:control_tokens"]}
{"id": "C04", "title": "Encoder implements the DVI 1.0 encoding algorithm", "statement": "Word for word and with a latency of four pixel clocks, the Encoder's output equals the DVI 1.0 figure 3-5 algorithm run over the same input sequence, control words included.", "quantifier": "every input stream, every cycle", "why_tests_cant": "equality of two state machines over unbounded histories", "anchors": ["litevideo/output/hdmi/encoder.py:Encoder"]}
{"id": "C05", "title": "Word decoding is total and classifies exactly", "statement": "For every received 10-bit word, one clock later Decoding reports raw=word and de=0 exactly when the word is one of the four control words, with c its index; for other words de=1, c keeps the last control value received and d is the un-inverted XOR/XNOR-decoded byte; valid_o is valid_i delayed by one clock.", "quantifier": "every input sequence and every cycle", "why_tests_cant": "c is history dependent; the property ranges over all 1024 words and all histories", "anchors": ["litevideo/input/decoding.py:Decoding", "litevideo/input/common.py:control_tokens"]}
{"id": "C06", "title": "Character lock is never granted or moved without evidence", "statement": "The synced flag rises, or the selected bit alignment changes, only after a control word has been seen at that same alignment in (at least) eight consecutive word clocks; once synced is 1 it stays 1.", "quantifier": "every raw bit stream (arbitrary garbage included) and every cycle", "why_tests_cant": "ranges over arbitrary received bit streams", "anchors": ["litevideo/input/charsync.py:CharSync"]}
{"id": "C07", "title": "Character lock is acquired during blanking at the true alignment", "statement": "For a bit stream made of TMDS words (control words and encoder pixel words) received with any bit offset k in 0..9, after any nine consecutive control words, whatever the state was before, synced is 1 and the selected alignment is k.", "quantifier": "every TMDS word sequence, every bit offset, every starting state", "why_tests_cant": "false matches at wrong offsets depend on arbitrary pairs of neighbouring words and on stale counters", "anchors": ["litevideo/input/charsync.py:CharSync"]}
{"id": "C08", "title": "Character lock is stable and the recovered words are the transmitted words", "statement": "Once locked at the true offset of a TMDS word stream, no later pixel or control content moves the lock, and every later output word is exactly the next transmitted word, in order, none lost or duplicated.", "quantifier": "every TMDS word sequence, every offset, every later cycle", "why_tests_cant": "a false re-lock would need a rare pixel pattern; only a proof covers all patterns", "anchors": ["litevideo/input/charsync.py:CharSync"]}
{"id": "C09", "title": "Legal TMDS words are never counted as errors", "statement": "If every received word is a control word or a word an Encoder can emit, the word-error counter stays 0 and every published value is 0.", "quantifier": "every sequence of legal words, every cycle, every period length", "why_tests_cant": "ranges over all legal word sequences", "anchors": ["litevideo/input/wer.py:WER"]}
{"id": "C10", "title": "Published word error count is exact", "statement": "The value published at the end of each measurement period is the number of received words in that period that have more than four transitions in their low nine bits and are not control words.", "quantifier": "every word sequence, every period, every period_bits", "why_tests_cant": "the boundary word of a period is one in 2^24 clocks", "anchors": ["litevideo/input/wer.py:WER"]}
{"id": "C11", "title": "Channel skew is removed within one line", "statement": "For three channels carrying words with the same DE pattern but arbitrary relative skew of up to 7 clocks, after one blanking / active / blanking sequence (each of at least 32 clocks) the three outputs are word-aligned, whatever the buffers and pointers contained before.", "quantifier": "every initial buffer and pointer state, every skew triple with spread at most 7, every DE pattern with the stated run lengths, every payload", "why_tests_cant": "the elastic buffers wrap; convergence must be shown from every state and phase", "anchors": ["litevideo/input/chansync.py:ChanSync", "litevideo/input/chansync.py:_SyncBuffer"]}
{"id": "C12", "title": "Aligned channels stay aligned", "statement": "Once the three channel outputs are aligned on streams with a common DE pattern, they stay aligned forever with constant delay, each output is its input delayed by that channel's constant delay, and chan_synced stays 1 while valid_i is 1.", "quantifier": "every later input with a common DE pattern, every cycle", "why_tests_cant": "unbounded future", "anchors": ["litevideo/input/chansync.py:ChanSync"]}
{"id": "C13", "title": "Loss of channel sync is reported", "statement": "chan_synced is 0 one clock after valid_i was 0, and one clock after any clock in which some but not all channels presented a control word; it becomes 1 only in a clock following one with valid_i and all channels presenting control words.", "quantifier": "every input history, every cycle", "why_tests_cant": "ranges over all histories of three elastic buffers", "anchors": ["litevideo/input/chansync.py:ChanSync"]}
{"id": "C14", "title": "DVI mode DE is the channel-0 DE", "statement": "With the dvimode register set, the DE given to the rest of the receiver is the channel-0 DE delayed by exactly one pixel clock, whatever the TERC4 state machine does.", "quantifier": "every input history", "why_tests_cant": "all histories of the HDMI period tracker", "anchors": ["litevideo/input/decoding.py:DecodeTERC4"]}
{"id": "C15", "title": "HDMI DE is raised only after a video guard band and falls at the first control word", "statement": "In HDMI mode, DE is high at a clock only if a video guard band was received on all three channels earlier and no control word was received on any channel since (the single word right after the guard band is taken as a pixel whatever it is); the encrypting flags are mutually exclusive and consistent with DE.", "quantifier": "every input history, every cycle", "why_tests_cant": "eight-state tracker over arbitrary received words", "anchors": ["litevideo/input/decoding.py:DecodeTERC4", "litevideo/input/decoding.py:DecodeTERC4Channel"]}
{"id": "C16", "title": "HDMI DE covers every pixel of a line", "statement": "After a video guard band, DE is high exactly when a pixel word of the line is presented to the rest of the receiver, from the first to the last, for every pixel colour.", "quantifier": "every pixel content of every line", "why_tests_cant": "only specific pixel values expose it", "anchors": ["litevideo/input/decoding.py:DecodeTERC4"]}
{"id": "C17", "title": "TERC4 nibbles decode to what was sent", "statement": "The 16 TERC4 words are pairwise distinct and each decodes, one clock later, to its 4-bit index on every channel; other words leave the nibble unchanged.", "quantifier": "all 16 nibbles, all 1024 words, every history", "why_tests_cant": "history dependent hold", "anchors": ["litevideo/input/decoding.py:DecodeTERC4Channel", "litevideo/input/decoding.py:terc4_tokens"]}
{"id": "C18", "title": "Sync polarity is normalised", "statement": "For a source with any (h,v) sync polarity whose syncs are inactive when DE falls, from the end of the first active line on, hsync and vsync are reported active-high, aligned with de and r/g/b (all one clock after the input).", "quantifier": "every polarity pair, every DE/sync/pixel history", "why_tests_cant": "history dependent polarity register", "anchors": ["litevideo/input/analysis.py:SyncPolarity"]}
{"id": "C19", "title": "Measured horizontal resolution", "statement": "With valid input, after every active run the reported hres equals the length of that run (mod 2^nbits), and it keeps that value until the next run ends; with invalid input it is 0.", "quantifier": "every DE/valid history, every register width", "why_tests_cant": "all run lengths and histories", "anchors": ["litevideo/input/analysis.py:ResolutionDetection"]}
{"id": "C20", "title": "Measured vertical resolution", "statement": "With valid input, at each rising vsync the reported vres becomes the number of active runs that ended strictly between the previous rising vsync and this one (mod 2^nbits), and keeps that value until the next one.", "quantifier": "every DE/vsync history, every register width", "why_tests_cant": "all frame heights and histories", "anchors": ["litevideo/input/analysis.py:ResolutionDetection"]}
{"id": "C21", "title": "Frame capture packs pixels in order", "statement": "Between two frame starts, the words pushed into the capture FIFO are exactly the successive groups of pack_factor pixels of the frame, first pixel in the most significant lane, no pixel lost, duplicated or reordered.", "quantifier": "every pixel/valid/DE history, every accepted pack factor", "why_tests_cant": "all histories and widths", "anchors": ["litevideo/input/analysis.py:FrameExtraction"]}
{"id": "C22", "title": "Start-of-frame marks exactly the first word of a frame", "statement": "Of the words pushed after a rising vsync, the first carries sof=1 and every later one carries sof=0 until the next rising vsync.", "quantifier": "every history", "why_tests_cant": "depends on the number of pixels in the previous frame modulo the pack factor", "anchors": ["litevideo/input/analysis.py:FrameExtraction"]}
{"id": "C23", "title": "Capture overflow is never silent", "statement": "If a captured word is refused by a full FIFO, the overflow flag is 1 on the next clock and stays 1 until a reset request arrives; it is never 1 if no word has been refused since the last reset.", "quantifier": "every history of FIFO readiness", "why_tests_cant": "all schedules", "anchors": ["litevideo/input/analysis.py:FrameExtraction"]}
{"id": "C24", "title": "Capture DMA writes the frame contiguously", "statement": "When a frame is captured into a slot, the writes issued to memory are exactly the frame-size words following the start of frame, in order, at consecutive word addresses starting at the slot address.", "quantifier": "every stream, every memory back-pressure schedule, every address and (non-zero) frame size", "why_tests_cant": "all interleavings of stream valid and memory ready", "anchors": ["litevideo/input/dma.py:DMA"]}
{"id": "C25", "title": "Capture DMA never writes outside the slot buffer", "statement": "Every write address lies in [slot address, slot address + frame size in words).", "quantifier": "every stream, schedule, slot address and frame size, including the reset value 0", "why_tests_cant": "boundary value reached only after 2^aw writes", "anchors": ["litevideo/input/dma.py:DMA"]}
{"id": "C26", "title": "Capture slot hand-over", "statement": "A slot goes from LOADED to PENDING exactly when its frame is complete and flushed, its address register then holds the end address, its event is raised, no other slot is modified, and the next slot used is the lowest-numbered LOADED one.", "quantifier": "every number of slots, every software write schedule that does not touch the slot in use", "why_tests_cant": "all interleavings of software and DMA", "anchors": ["litevideo/input/dma.py:_Slot", "litevideo/input/dma.py:_SlotArray", "litevideo/input/dma.py:DMA"]}
{"id": "C27", "title": "Capture starts only at a start of frame", "statement": "Words without sof, and words arriving while no slot is loaded, are discarded while waiting; the first word written for a slot is a word carrying sof.", "quantifier": "every stream and schedule", "why_tests_cant": "all schedules", "anchors": ["litevideo/input/dma.py:DMA"]}
{"id": "C28", "title": "EDID reads return the EDID contents", "statement": "For an I2C master that addresses 0x50, writes an offset, restarts and reads n bytes, the slave acknowledges and shifts out memory bytes offset, offset+1, ... (mod memory size), most significant bit first.", "quantifier": "every EDID content, every offset, every n, every timing in which each bus level is held long enough", "why_tests_cant": "all transaction lengths, contents and timings", "anchors": ["litevideo/input/edid.py:EDID"]}
{"id": "C29", "title": "EDID slave only answers its own address", "statement": "After a start condition followed by an address byte other than 0x50, the slave never pulls SDA low until the next start condition.", "quantifier": "every address, every following bus activity", "why_tests_cant": "all bus histories", "anchors": ["litevideo/input/edid.py:EDID"]}
{"id": "C30", "title": "EDID slave cannot hang the bus", "statement": "After any history, a master that releases SDA and clocks SCL ten times gets SDA back, and the slave releases SDA whenever it is not selected (hot-plug disabled or waiting for a start condition).", "quantifier": "every bus and hpd_en history", "why_tests_cant": "needs hpd_en to fall inside one particular bit", "anchors": ["litevideo/input/edid.py:EDID"]}
{"id": "C31", "title": "Video timing geometry", "statement": "Driven by constant parameters with hres<=hscan and vres<=vscan, the timing generator produces frames of exactly (hscan+1)*(vscan+1) accepted clocks, with de high exactly on hres clocks of each of the first vres lines, hsync high exactly for hsync_end-hsync_start clocks per line and vsync for (vsync_end-vsync_start)*(hscan+1) clocks per frame at the programmed positions.", "quantifier": "every parameter set in range, every clock of every frame", "why_tests_cant": "all 12-bit parameter sets and unbounded time", "anchors": ["litevideo/output/core.py:TimingGenerator"]}
{"id": "C32", "title": "Video timing is independent of stalls", "statement": "The sequence of timing outputs seen on accepted clocks does not depend on the ready schedule of the consumer.", "quantifier": "every ready schedule", "why_tests_cant": "all schedules", "anchors": ["litevideo/output/core.py:TimingGenerator"]}
{"id": "C33", "title": "Frame parameters are taken only at frame boundaries", "statement": "The timing generator asks for a new parameter set exactly once per frame, on the first accepted clock after the last clock of a frame, and otherwise never.", "quantifier": "every ready schedule and parameter set", "why_tests_cant": "all schedules", "anchors": ["litevideo/output/core.py:TimingGenerator", "litevideo/output/core.py:Initiator"]}
{"id": "C34", "title": "Output DMA reads each frame contiguously", "statement": "For each frame the output DMA issues exactly the word addresses base, base+1, ..., base+length-1, once each and in order, then completes.", "quantifier": "every base and (non-zero) length, every memory ready schedule", "why_tests_cant": "all schedules", "anchors": ["litevideo/output/core.py:DMAReader"]}
{"id": "C35", "title": "Every displayed pixel is the next memory word", "statement": "In rgb/ycbcr422 mode the k-th transferred clock with de=1 carries the k-th word delivered by the DMA; no word is skipped, duplicated or shown outside de.", "quantifier": "every dma valid schedule, sink ready schedule and timing", "why_tests_cant": "all schedules", "anchors": ["litevideo/output/core.py:VideoOutCore"]}
{"id": "C36", "title": "Raw mode delivers every word of the scan in order", "statement": "In raw mode the k-th transferred clock carries the k-th word delivered by the DMA.", "quantifier": "every dma valid schedule", "why_tests_cant": "needs an underflow inside blanking", "anchors": ["litevideo/output/core.py:VideoOutCore"]}
{"id": "C37", "title": "A displayed frame comes from one buffer", "statement": "When software queues a new base address, every displayed frame is read entirely from one of the queued base addresses (no tearing).", "quantifier": "every queue of parameter sets and schedule", "why_tests_cant": "depends on prefetch depth and schedule", "anchors": ["litevideo/output/core.py:VideoOutCore", "litevideo/output/core.py:DMAReader", "litevideo/output/core.py:Initiator"]}
{"id": "C38", "title": "Underflow counter is exact", "statement": "While enabled, the underflow counter is the number of clocks (mod 2^32) since enabling in which no valid pixel was available; it is 0 while disabled; the status register shows the counter at the last update request.", "quantifier": "every schedule", "why_tests_cant": "all schedules", "anchors": ["litevideo/output/core.py:VideoOutCore"]}
{"id": "C39", "title": "YCbCr output path keeps pixels aligned with DE", "statement": "In ycbcr422 mode the pixel presented to the driver in the first de clock of a line is the first pixel of that line.", "quantifier": "every frame content and timing", "why_tests_cant": "pipeline latency bookkeeping for all contents", "anchors": ["litevideo/output/__init__.py:VideoOut", "litevideo/output/__init__.py:TimingDelay"]}
{"id": "C40", "title": "Pipelined converters neither lose nor reorder pixels", "statement": "For the pipelined stream converters (RGB<->YCbCr, 444to422, float), under every valid/ready schedule the sequence of accepted outputs is the image of the sequence of accepted inputs under the converter's function, and source data is stable while stalled.", "quantifier": "every valid/ready schedule of any length", "why_tests_cant": "all schedules", "anchors": ["litevideo/csc/rgb2ycbcr.py:RGB2YCbCr", "litevideo/csc/ycbcr2rgb.py:YCbCr2RGB", "litevideo/float_arithmetic/floatmult.py:FloatMult"]}
{"id": "C41", "title": "RGB to YCbCr computes the documented fixed-point formula without overflow", "statement": "For every 8-bit r,g,b the output is exactly the saturated floor of the documented fixed-point formula; no intermediate register overflows.", "quantifier": "all 2^24 colours (and all pixel widths for the no-overflow part)", "why_tests_cant": "16 million inputs and all widths", "anchors": ["litevideo/csc/rgb2ycbcr.py:RGB2YCbCrDatapath", "litevideo/csc/common.py:saturate"]}
{"id": "C42", "title": "RGB to YCbCr accuracy", "statement": "For every colour each output component differs from the exact (real-valued) conversion with the documented coefficients by at most a fixed small number of LSBs.", "quantifier": "all 2^24 colours", "why_tests_cant": "16 million inputs", "anchors": ["litevideo/csc/rgb2ycbcr.py:rgb2ycbcr_coefs"]}
{"id": "C43", "title": "YCbCr to RGB computes the documented fixed-point formula without overflow", "statement": "For every 8-bit y,cb,cr the output is exactly the saturated floor of the documented fixed-point formula; no intermediate register overflows.", "quantifier": "all 2^24 inputs", "why_tests_cant": "16 million inputs", "anchors": ["litevideo/csc/ycbcr2rgb.py:YCbCr2RGBDatapath"]}
{"id": "C44", "title": "RGB to YCbCr to RGB round trip error is bounded", "statement": "Converting any colour to YCbCr and back changes each component by at most a small fixed number of LSBs.", "quantifier": "all 2^24 colours", "why_tests_cant": "16 million inputs", "anchors": ["litevideo/csc/rgb2ycbcr.py:RGB2YCbCrDatapath", "litevideo/csc/ycbcr2rgb.py:YCbCr2RGBDatapath"]}
{"id": "C45", "title": "Chroma downsampling", "statement": "From the clock after `first`, output pixel 2k carries y(2k) with the truncated mean of cb(2k),cb(2k+1), and output pixel 2k+1 carries y(2k+1) with the truncated mean of cr(2k),cr(2k+1), with latency 3, under every stall schedule.", "quantifier": "every pixel stream, every line position, every stall schedule", "why_tests_cant": "parity state over unbounded lines", "anchors": ["litevideo/csc/ycbcr444to422.py:YCbCr444to422Datapath"]}
{"id": "C46", "title": "Chroma upsampling", "statement": "Under every valid/ready schedule the n-th accepted output is y(n), cb(2*(n/2)), cr(2*(n/2)+1) of the accepted inputs; nothing is lost or duplicated and no schedule deadlocks it.", "quantifier": "every valid/ready schedule, every data", "why_tests_cant": "three FIFOs and two parity bits under all schedules", "anchors": ["litevideo/csc/ycbcr422to444.py:YCbCr422to444"]}
{"id": "C47", "title": "Half-float to pixel conversion", "statement": "For every half-precision value in [0,1] the pixel produced is floor(256*value) clamped to 255.", "quantifier": "all 16-bit encodings in range", "why_tests_cant": "boundary encodings", "anchors": ["litevideo/csc/rgb16f2rgb.py:PIXF2PIXDatapath"]}
{"id": "C48", "title": "Pixel to half-float conversion", "statement": "For every 8-bit pixel the half-float produced encodes pixel/256, as the reference lookup table does, and converting back returns the pixel.", "quantifier": "all pixels", "why_tests_cant": "exhaustive claim on both implementations", "anchors": ["litevideo/csc/rgb2rgb16f.py:PIX2PIXFDatapath", "litevideo/csc/rgb2rgb16f.py:lookup_table", "litevideo/csc/rgb2rgb16f.py:PIX2PIXFLUT"]}
{"id": "C49", "title": "Leading-one detector", "statement": "For every width and every non-zero input, leadone is the number of zeros above the most significant 1; it is 0 for input 0.", "quantifier": "all widths, all inputs", "why_tests_cant": "all widths", "anchors": ["litevideo/float_arithmetic/common.py:LeadOne"]}
{"id": "C50", "title": "Half-float multiplier", "statement": "For every stream of pairs of non-negative finite halves whose product is in range, each output is the product truncated toward zero, in order.", "quantifier": "all operand pairs, all streams", "why_tests_cant": "2^32 pairs and all neighbouring operands in the pipeline", "anchors": ["litevideo/float_arithmetic/floatmult.py:FloatMultDatapath"]}
{"id": "C51", "title": "Half-float adder", "statement": "For every pair of non-negative finite halves whose sum is in range, the output is the sum of the operands aligned (with truncation) to the larger exponent, truncated; the result is within two units in the last place of the exact sum.", "quantifier": "all operand pairs", "why_tests_cant": "2^32 pairs", "anchors": ["litevideo/float_arithmetic/floatadd.py:FloatAddDatapath"]}
{"id": "C52", "title": "Colour bar pattern", "statement": "With a consumer always ready, pixel n of the stream has the colour of bar (n / (hres/8)) mod 8, so for hres a multiple of 8 every line shows eight equal vertical bars.", "quantifier": "every hres, every pixel index", "why_tests_cant": "unbounded streams, all hres", "anchors": ["litevideo/output/pattern.py:ColorBarsPattern"]}
{"id": "C53", "title": "Pattern data is stable under back-pressure", "statement": "While a pattern source is valid and not accepted, its data does not change, and the pixel sequence delivered does not depend on the consumer's schedule.", "quantifier": "every ready schedule", "why_tests_cant": "all schedules", "anchors": ["litevideo/output/pattern.py:ColorBarsPattern", "litevideo/output/pattern.py:DotsPattern", "litevideo/output/pattern.py:VerticalLinesPattern"]}
{"id": "C54", "title": "Dots and vertical line patterns", "statement": "With a consumer always ready, the vertical-lines pattern alternates black and white every pixel and the dots pattern is a checkerboard (for every even or odd hres).", "quantifier": "every hres and pixel index", "why_tests_cant": "unbounded streams", "anchors": ["litevideo/output/pattern.py:DotsPattern", "litevideo/output/pattern.py:VerticalLinesPattern"]}
{"id": "C55", "title": "Terminal VGA timing", "statement": "Sync pulses, porches and active area repeat with a constant line and frame period at the documented positions, for ever.", "quantifier": "every clock from power-on", "why_tests_cant": "unbounded time", "anchors": ["litevideo/terminal/core.py:Terminal"]}
{"id": "C56", "title": "Terminal shows the text buffer", "statement": "In every frame after the first vertical back porch, the colour at column x, row y is palette[foreground] if bit 7-(x mod 8) of font line (y mod 16) of the character at cell (x/8, y/16) is set, else palette[background]; outside the active area the output is black.", "quantifier": "every RAM content, every pixel of every frame", "why_tests_cant": "256 characters x colours x positions x unbounded frames", "anchors": ["litevideo/terminal/core.py:Terminal"]}
{"id": "C57", "title": "Terminal RAM behaves as memory", "statement": "For every sequence of Wishbone cycles by a compliant master, every access is acknowledged one clock after it starts, a read returns the last byte written to that address (or the initial content), and a write changes no other address.", "quantifier": "every sequence of transactions", "why_tests_cant": "all histories", "anchors": ["litevideo/terminal/core.py:Terminal"]}
{"id": "C58", "title": "Pixel clock programming is serialised correctly", "statement": "A command written to the clock generator is shifted out least significant bit first on exactly the ten clocks after the write, with enable high on exactly those clocks (and on `go` strobes), and busy is high for exactly thirteen clocks.", "quantifier": "every command value, every clock, every idle gap", "why_tests_cant": "all values and timings", "anchors": ["litevideo/output/hdmi/s6.py:S6HDMIOutClocking"]}
{"id": "C59", "title": "Phase error accumulator saturates and never wraps", "statement": "The phase accumulator stays within its range, never wraps, freezes once it reports too-late or too-early, and only a reset request unfreezes it; the two flags are never both 1.", "quantifier": "every detector history, every width", "why_tests_cant": "all histories", "anchors": ["litevideo/input/datacapture.py:S6DataCapture", "litevideo/input/datacapture.py:S7DataCapture"]}
{"id": "C60", "title": "Soft serialisation and deserialisation keep bit order", "statement": "The 10-to-5 output gear and the 5-to-10 input gear preserve the bit order of the word stream, in both pad polarities.", "quantifier": "every word stream", "why_tests_cant": "all streams", "anchors": ["litevideo/output/hdmi/s6.py:_S6HDMIOutEncoderSerializer", "litevideo/input/datacapture.py:S6DataCapture"]}
{"id": "C61", "title": "Timing delay lines are pure delays", "statement": "A timing delay of latency n outputs its input n clocks later, for every n including 0, and 0 before that.", "quantifier": "every latency, every stream", "why_tests_cant": "all n", "anchors": ["litevideo/output/__init__.py:TimingDelay", "litevideo/input/__init__.py:TimingDelayChannel"]}
{"id": "C62", "title": "TMDS channel end to end", "statement": "Encoder, serial link with an unknown bit offset, character synchroniser in an unknown state and Decoding chained together: after nine consecutive blank characters, every later character (pixel or control) comes out of the receiver unchanged, in order, with a constant latency.", "quantifier": "every character stream, every bit offset, every initial receiver state, every later clock", "why_tests_cant": "product of unbounded histories and unknown state", "anchors": ["litevideo/output/hdmi/encoder.py:Encoder", "litevideo/input/charsync.py:CharSync", "litevideo/input/decoding.py:Decoding"]}
{"id": "C63", "title": "HDMI data islands are flagged exactly", "statement": "After a data island preamble of at least four words, guard band words, packet words and closing guard band words, whatever was received before: the TERC4 flag is high exactly for the guard bands and packet words, the data-encryption flag exactly for the packet words, and DE is low, all two clocks after the words.", "quantifier": "every island length, every packet content, every earlier state of the tracker", "why_tests_cant": "unbounded histories and all packet contents", "anchors": ["litevideo/input/decoding.py:DecodeTERC4", "litevideo/input/decoding.py:DecodeTERC4Channel"]}
{"id": "C64", "title": "Captured colours are displayed unchanged", "statement": "A pixel captured in rgb mode, stored by the capture DMA and fetched by the rgb video output reaches the output driver with the same red, green and blue values it had on the input.", "quantifier": "all colours", "why_tests_cant": "a swap of two components needs an end-to-end check of two separately tested halves", "anchors": ["litevideo/input/analysis.py:FrameExtraction", "litevideo/output/__init__.py:VideoOut"]}
{"id": "C65", "title": "YCbCr 4:2:2 capture keeps pixels aligned with DE", "statement": "In ycbcr422 mode the word written for the n-th active pixel of a line is the 4:2:2 conversion of the n-th pixel of that line: even pixels carry the mean cb and odd pixels the mean cr of their pair.", "quantifier": "every frame content and timing with an even number of pixels per line and at least nine blank clocks after it", "why_tests_cant": "alignment of several delay lines over unbounded histories", "anchors": ["litevideo/input/analysis.py:FrameExtraction", "litevideo/csc/rgb2ycbcr.py:RGB2YCbCr", "litevideo/csc/ycbcr444to422.py:YCbCr444to422"]}
{"id": "C66", "title": "Video timing restarts cleanly", "statement": "Whatever happened before, after a clock without parameters the scan restarts at the top left: de is exact from the first accepted clock, hsync from column hsync_end of the first line and vsync from line vsync_end on, and stopping clears the sync outputs.", "quantifier": "every earlier history, every ready schedule, every parameter set in range", "why_tests_cant": "unbounded histories before the restart", "anchors": ["litevideo/output/core.py:TimingGenerator"]}
{"id": "C67", "title": "Captured frame boundaries follow the pixels", "statement": "In ycbcr422 mode a pixel that arrives before the rising edge of vsync is stored as part of the frame before the edge, and one that arrives after it as part of the next frame, like in rgb mode.", "quantifier": "every frame content and timing", "why_tests_cant": "needs the relative delay of two paths for every position of the vsync edge", "anchors": ["litevideo/input/analysis.py:FrameExtraction"]}
{"id": "C68", "title": "DRP ready flag", "statement": "After a read or write request to the clock generator's dynamic reconfiguration port the ready flag is low until the port answers, then stays high until the next request.", "quantifier": "every history of requests and answers", "why_tests_cant": "unbounded histories", "anchors": ["litevideo/output/hdmi/s6.py:S6HDMIOutClocking", "litevideo/output/hdmi/s7.py:S7HDMIOutClocking", "litevideo/input/clocking.py"]}
{"id": "C69", "title": "Half-float arithmetic honours signs", "statement": "For every pair of finite halves of either sign, the multiplier delivers the signed product and the adder the signed sum, both truncated.", "quantifier": "all operand pairs of all signs", "why_tests_cant": "2^32 pairs", "anchors": ["litevideo/float_arithmetic/floatmult.py:FloatMultDatapath", "litevideo/float_arithmetic/floatadd.py:FloatAddDatapath"]}
{"id": "C70", "title": "DVI link from transmitter to receiver", "statement": "Connect the video output PHY to the video input with each of the three data channels delayed by any number of bit times that differ by at most 70 bits between channels, and let the receiver start in any state: after the first line with at least 30 blank, 24 active and 24 blank clocks the receiver reports valid for ever and delivers de, red, green and blue of every pixel unchanged with one constant latency bounded by the delays; after the next line it delivers hsync and vsync, active high whatever their polarity. Data is reported valid only if every channel was word-aligned three clocks earlier, whatever is received.", "quantifier": "every pixel stream whose sync edges keep one clock away from DE, every set of delays, every sampled prefix, every receiver start state, every later clock", "why_tests_cant": "unbounded streams, arbitrary word alignment and skew, arbitrary start state", "anchors": ["litevideo/output/hdmi/s6.py:S6HDMIOutPHY", "litevideo/output/hdmi/s7.py:S7HDMIOutPHY", "litevideo/output/hdmi/encoder.py:Encoder", "litevideo/input/__init__.py:HDMIIn", "litevideo/input/charsync.py:CharSync", "litevideo/input/decoding.py:Decoding", "litevideo/input/chansync.py:ChanSync", "litevideo/input/analysis.py:SyncPolarity"]}
{"id": "C71", "title": "Resolution measured over the link is the resolution programmed", "statement": "When the rgb video output is programmed with a frame geometry with at least 24 active pixels and 30 blank clocks per line, blank lines and sync pulses outside the active area, and its memory reads keep up, a receiver behind a DVI link with arbitrary delays reports the programmed horizontal and vertical resolution, modulo 2048, from the fifth frame on and for ever.", "quantifier": "all frame geometries, all memory contents, all channel delays with at most 70 bits of skew, all receiver start states, all later clocks", "why_tests_cant": "whole-system property over unbounded time and all geometries", "anchors": ["litevideo/output/core.py:TimingGenerator", "litevideo/output/__init__.py:VideoOut", "litevideo/input/__init__.py:HDMIIn", "litevideo/input/analysis.py:ResolutionDetection"]}
{"id": "C72", "title": "Frames sent over the link are captured word for word", "statement": "In the same setting, with rgb frame capture packing 2^k pixels per word and frames of a whole number of words, the words pushed by the frame capture between two starts of vsync are, from the fifth frame on, exactly the pixels of one transmitted frame in order, first pixel in the most significant lane, with the red and blue bytes of the frame buffer word exchanged, and only the first word tagged as start of frame.", "quantifier": "all frame geometries, all memory contents, all pack factors 2^k, all channel delays and receiver start states, every frame", "why_tests_cant": "whole-system property over unbounded time and all geometries", "anchors": ["litevideo/output/core.py:VideoOutCore", "litevideo/output/__init__.py:VideoOut", "litevideo/input/__init__.py:HDMIIn", "litevideo/input/analysis.py:FrameExtraction"]}
{"id": "C73", "title": "Command pulses between clock domains", "statement": "A command pulse handed to the other clock domain is seen there in exactly one clock, the third one after it was given, if any two commands are given in different clocks of the receiving domain; nothing is ever seen without a command. Two commands within one clock of the receiving domain are both lost.", "quantifier": "every interleaving of the edges of the two clocks, every sequence of commands", "why_tests_cant": "clock ratios and phases are unbounded, simulation uses a handful", "anchors": ["litevideo/input/datacapture.py:S6DataCapture", "litevideo/input/analysis.py:FrameExtraction", "litevideo/input/wer.py:WER"]}
{"id": "C74", "title": "Spartan-6 delay commands are executed once before the busy bit clears", "statement": "If software writes a calibrate, increment or decrement command only while the busy bit of the delay line reads 0, then whenever the bit reads 0 again the delay line has been given exactly that command exactly once and has since been ready; the delay line is never given anything else, and the busy bit does return to 0 as long as both clocks run and the delay line keeps becoming ready.", "quantifier": "every interleaving of the two clocks, every command sequence, every busy behaviour of the delay line", "why_tests_cant": "three nested crossings under arbitrary clock schedules, includes a liveness claim", "anchors": ["litevideo/input/datacapture.py:S6DataCapture"]}
{"id": "C75", "title": "The overflow flag reports every lost word since it was cleared and nothing older", "statement": "When software clears the overflow flag of the frame capture, the flag afterwards reads 1 exactly when a word was lost after the clear.", "quantifier": "every interleaving of the two clocks, every sequence of losses and clears", "why_tests_cant": "arbitrary clock schedules and races between clearing and setting", "anchors": ["litevideo/input/analysis.py:FrameExtraction"]}
{"id": "C76", "title": "The word error count software reads is that of a whole completed period", "statement": "If at least three system clocks fit in a measurement period, then after software writes the update register it reads, until the next update, the count published for the newest period whose result is at least three system clocks old, and 0 before the first one; it never reads a value that mixes two periods.", "quantifier": "every interleaving of the pixel and system clocks, every word stream, every period length of at least 4 words, every time of update", "why_tests_cant": "unbounded time, arbitrary clock schedules", "anchors": ["litevideo/input/wer.py:WER"]}
{"id": "C77", "title": "Captured words cross to the system clock in order", "statement": "The words delivered to the DMA in the system clock are the words packed in the pixel clock that were not dropped, in order, none missing, repeated or corrupted, and never more than the FIFO depth behind; a word is on offer two system clocks after it was stored at the latest and stays on offer unchanged until taken; a word is dropped (and flagged as overflow) only if a whole FIFO of words had not been taken two pixel clocks before.", "quantifier": "every FIFO depth 2^n, every pack factor, every interleaving of the two clocks, every resolution of the bits of a pointer sampled while it changes, every stream and every pattern of ready", "why_tests_cant": "asynchronous pointers under arbitrary clock schedules and races; unbounded streams", "anchors": ["litevideo/input/analysis.py:FrameExtraction"]}
{"id": "C78", "title": "Video output parameters are whole snapshots of the registers, in order, at most four frames late", "statement": "Each set of timing and DMA parameters taken by the video output is the contents of all parameter registers in one system clock in which the output was enabled, and later sets come from later clocks, so registers written only while disabled are never used half-updated; the set in use does not change before it is taken; register contents that no longer change are used after at most four further sets; at most four further sets are taken after disabling; while enabled a set is available after three system clocks and two output clocks. (Not claimed, because false: that the next frame uses the current registers, or that changing registers while enabled cannot mix old and new values.)", "quantifier": "every interleaving of the two clocks, every resolution of pointer races, every sequence of register writes, every pattern of frame ends", "why_tests_cant": "asynchronous queue, arbitrary clock schedules, unbounded histories", "anchors": ["litevideo/output/core.py:Initiator"]}
{"id": "C79", "title": "A transmitted frame ends up whole in the receiver's memory", "statement": "When the video output sends a sequence of frames over a DVI link with constant skews and the receiver is aligned, a capture by the DMA whose size register holds exactly one frame, which starts after the words older than the fifth transmitted frame have been taken, and during which no word was lost, leaves in the buffer of the slot that was in use exactly the pixels of one transmitted frame, in order from the address of the slot (red and blue exchanged in each pixel), and changes no other memory word, whatever the memory and clock timing.", "quantifier": "every legal video mode of at least 24 pixels per line, every frame contents, every skew and pipeline state, every pack factor 2^k with k >= 1, every FIFO depth and pointer race, every interleaving of the pixel and system clocks, every memory handshake and sequence of software accesses", "why_tests_cant": "end-to-end composition of seven units in three clock domains over unbounded time", "anchors": ["litevideo/output/core.py:VideoOutCore", "litevideo/input/__init__.py:HDMIIn", "litevideo/input/analysis.py:FrameExtraction", "litevideo/input/dma.py:DMA"]}
{"id": "C80", "title": "Genlocked output reads the buffer once per incoming frame", "statement": "A video output locked to an incoming stream reads its buffer exactly once for each incoming frame: the words from the configured start delay to the end of the buffer, each once and in ascending order, starting at the fourth clock after the rising edge of the incoming vsync, one for every clock in which the memory accepts a request - provided the delay is smaller than the buffer and the pass is over before the next edge. An edge that comes during a pass is ignored: the pass goes on to its end and the frame of that edge is not read.", "quantifier": "every buffer, delay, address width, vsync waveform and pattern of memory acceptance, every frame for ever", "why_tests_cant": "unbounded runs, arbitrary memory timing and frame lengths", "anchors": ["litevideo/output/core.py:DMAReader"]}
{"id": "C81", "title": "Genlocked picture stays aligned with the incoming frames", "statement": "With the output locked to an incoming stream whose frames have as many pixels as the buffer has words, every displayed frame consists of the words of the buffer in order, the first pixel of the frame showing the first word.", "quantifier": "every incoming stream, buffer, memory latency, queue depth, moment of enabling", "why_tests_cant": "depends on the moment of enabling and on arbitrary memory latency over unbounded time", "anchors": ["litevideo/output/core.py:DMAReader", "litevideo/output/core.py:TimingGenerator", "litevideo/output/core.py:VideoOutCore"]}
{"id": "C82", "title": "Genlocked output keeps its first parameters", "statement": "In genlock mode the buffer address and length in use are the registers as they were at the first system clock in which the output was enabled; once they are on offer they are used for ever, whatever software writes afterwards and even if it disables the output.", "quantifier": "every sequence of register writes, every interleaving of the two clocks, every pointer race", "why_tests_cant": "unbounded histories and arbitrary clock schedules", "anchors": ["litevideo/output/core.py:Initiator", "litevideo/output/core.py:VideoOutCore"]}
{"id": "C83", "title": "VGA pins show the picture", "statement": "At every point of the scan the VGA sync pins are low exactly in the programmed sync windows, in the active area the colour pins carry the most significant bits of the colours of the memory word of that pixel, and in blanking the colour pins are zero.", "quantifier": "all legal geometries, all memory contents, all pin widths up to 8, every frame, line and column", "why_tests_cant": "unbounded time, all geometries and contents", "anchors": ["litevideo/output/driver.py:VGAPHY", "litevideo/output/core.py:VideoOutCore"]}
{"id": "C84", "title": "Memory underflow does not disturb the syncs at the connector", "statement": "Whatever the memory delivers, the horizontal sync given to the PHY repeats every programmed line length.", "quantifier": "all legal geometries, memory contents and patterns of missing words", "why_tests_cant": "arbitrary patterns of memory latency over unbounded time", "anchors": ["litevideo/output/core.py:VideoOutCore", "litevideo/output/hdmi/s6.py:S6HDMIOutPHY", "litevideo/output/hdmi/s7.py:S7HDMIOutPHY", "litevideo/output/driver.py:VGAPHY"]}
{"id": "C85", "title": "A picture in the transmitter's memory ends up in the receiver's memory, start-up included", "statement": "Let the video output show a picture in its memory with constant parameters, however late the memory delivers at first, but without underflow from some clock on. Then the receiver reports the resolution from the fifth frame after that on, and a capture of one frame's worth of words that begins with later frames and loses no word leaves in the slot's buffer exactly the picture (red and blue exchanged in each pixel) and changes nothing else; the stream arrives later by one clock per underflow.", "quantifier": "every legal mode of at least 24 pixels per line, every picture, memory latency and acceptance pattern on both sides, number of early underflows, skew, receiver state, pack factor 2^k with k >= 1, FIFO depth, pointer race, clock interleaving and software behaviour", "why_tests_cant": "composition of the output core and reader with the link and capture over unbounded time, including an arbitrarily long disturbed start", "anchors": ["litevideo/output/core.py:VideoOutCore", "litevideo/output/core.py:DMAReader", "litevideo/input/__init__.py:HDMIIn", "litevideo/input/analysis.py:FrameExtraction", "litevideo/input/dma.py:DMA"]}
{"id": "C86", "title": "Series 7 serial link", "statement": "On a Series 7 device, whatever words are serialised at the transmitter, with any polarity at both ends and any line delay, the ten-bit words the receiver delivers form the sent bit stream in order without lost or repeated bits, provided the resets of the two receive clocks end within three pixel clocks of each other; and for arbitrary clocks, any word that is read while the writer is at most 30 bits behind and 40 bits ahead of its reset position is ten successive bits of the line.", "quantifier": "every word stream, polarity, delay, phase and fineness of the two clocks, and (second part) every pair of clocks", "why_tests_cant": "unbounded streams and all phase relations of two clocks", "anchors": ["litevideo/input/datacapture.py:S7DataCapture", "litevideo/output/hdmi/s7.py:S7HDMIOutEncoderSerializer"]}
{"id": "C87", "title": "HDMI receiver in DVI mode equals the DVI receiver", "statement": "With its DVI-mode register set, a receiver built with hdmi=True delivers the same DE and colours as one built with hdmi=False, one clock later, and after the first end of a DE period also the same hsync and vsync; the valid flag is not delayed.", "quantifier": "every sequence of captured words, every state of the receiver, every moment at which the register was set", "why_tests_cant": "unbounded streams and arbitrary internal states", "anchors": ["litevideo/input/__init__.py:HDMIIn", "litevideo/input/decoding.py:DecodeTERC4", "litevideo/input/analysis.py:SyncPolarity"]}
{"id": "C88", "title": "HDMI receiver shows a DVI source out of reset", "statement": "A receiver built with hdmi=True shows the picture of a DVI source (no preambles and guard bands) without software setting its DVI-mode register.", "quantifier": "every DVI stream", "why_tests_cant": "unbounded streams", "anchors": ["litevideo/input/__init__.py:HDMIIn", "litevideo/input/decoding.py:DecodeTERC4"]}
{"id": "C89", "title": "A picture in the transmitter's memory ends up in the receiver's memory as 4:2:2", "statement": "With the receiver in its default ycbcr422 mode and a mode with an even number of pixels per line, a capture of one frame's worth of words that begins late enough after the last underflow and loses no word leaves in the slot's buffer, in order and 16 bits per pixel, the picture in the transmitter's memory as YCbCr 4:2:2 (the luma of every pixel; the mean of the blue differences of each pair of pixels with its first, of the red differences with its second pixel), and changes nothing else, although the pixels reach the packer eleven clocks later than the frame boundaries.", "quantifier": "every legal mode of at least 24 and an even number of pixels per line, every picture, memory latency and acceptance pattern on both sides, number of early underflows, skew, receiver state, pack factor 2^k with k >= 1, FIFO depth, pointer race, clock interleaving and software behaviour", "why_tests_cant": "composition of nine units in three clock domains over unbounded time", "anchors": ["litevideo/output/core.py:VideoOutCore", "litevideo/input/__init__.py:HDMIIn", "litevideo/input/analysis.py:FrameExtraction", "litevideo/csc/rgb2ycbcr.py:RGB2YCbCr", "litevideo/csc/ycbcr444to422.py:YCbCr444to422", "litevideo/input/dma.py:DMA"]}
{"id": "C90", "title": "Video output from registers to pins and to the receiver's memory", "statement": "When software has written the registers and enables the output, the PHY is given blank pixels until the first parameter set arrives (within three system clocks and then two output clocks), and from the next clock on exactly the scan that the registers ask for, with the picture at the byte address in the base register, delayed only by clocks in which a pixel is due and the memory has not delivered it; and a receiver at the other end reports the registers' resolution and stores exactly that picture.", "quantifier": "every register contents that are a legal mode with a matching length, every interleaving of the two clocks with at least four system clocks per frame, every pointer race of the parameter FIFO, memory latency and acceptance pattern, address width and alignment; for the receiver everything C85 ranges over", "why_tests_cant": "composition of the parameter FIFO in two clock domains, timing generator, frame reader, memory, PHY, link, receiver and DMA over unbounded time", "anchors": ["litevideo/output/core.py:Initiator", "litevideo/output/core.py:VideoOutCore", "litevideo/output/core.py:DMAReader", "litevideo/output/driver.py:Driver", "litevideo/input/__init__.py:HDMIIn", "litevideo/input/dma.py:DMA"]}
{"id": "C91", "title": "Re-enabled output starts at the first pixel", "statement": "When software disables the output, waits until no parameter set is left, and enables it again with registers of a legal mode, the picture is shown from its first pixel, at the scan that the registers ask for.", "quantifier": "every earlier use of the output, every clock interleaving, pointer race, memory latency and acceptance pattern", "why_tests_cant": "arbitrary histories before the restart and arbitrary memory behaviour", "anchors": ["litevideo/output/core.py:Initiator", "litevideo/output/core.py:VideoOutCore", "litevideo/output/core.py:DMAReader"]}
{"id": "C92", "title": "The default EDID is a valid one", "statement": "With the EDID memory as it is after configuration, a master on the DDC bus that reads the whole memory by any legal sequence of I2C accesses gets 256 bytes that form a valid EDID: the fixed header, version 1.3, one extension block, a CEA extension of revision 3, both block sums zero modulo 256, and a preferred timing of 1920 by 1080.", "quantifier": "every bus master, bus timing and division of the reading into transfers that C28 ranges over", "why_tests_cant": "arbitrary bus timing and access patterns", "anchors": ["litevideo/input/edid.py:EDID", "litevideo/input/edid.py:_default_edid"]}
{"id": "C93", "title": "Raw mode sends the words in memory", "statement": "In raw mode the three serialisers get, in every clock in which the reader has a word, in blanking as well as in the active area, bits 0-9, 10-19 and 20-29 of the next memory word: the words of the buffer in order, each exactly once, then from the start of the buffer again. Throughout any run of clocks that all have a word, the output therefore repeats with the length of the buffer, whatever the programmed scan is.", "quantifier": "every buffer, address width, parameter set, memory latency and acceptance pattern, every clock", "why_tests_cant": "unbounded runs with arbitrary memory timing", "anchors": ["litevideo/output/core.py:VideoOutCore", "litevideo/output/__init__.py:VideoOut", "litevideo/output/hdmi/s7.py:S7HDMIOutPHY", "litevideo/output/hdmi/s6.py:S6HDMIOutPHY"]}
{"id": "C94", "title": "No captured word is lost while the memory keeps up", "statement": "If the memory port takes a word at least once in K+1 system clocks, is done with writing E system clocks after the last word handed over, the packed words do not come faster than that (counting the draining between frames) by more than a burst of B system clocks, and the FIFO is deep enough for the bursts, then no word is ever lost between the pixel clock and memory; in particular if the system clock is fast enough compared with the pixel clock, whatever the received stream contains.", "quantifier": "every stream, pack factor, FIFO depth, pointer race, interleaving of the two clocks, pattern of pauses of the memory within the bounds and software behaviour", "why_tests_cant": "arbitrary interleavings of two clocks and pause patterns over unbounded time", "anchors": ["litevideo/input/analysis.py:FrameExtraction", "litevideo/input/dma.py:DMA", "litevideo/input/__init__.py:HDMIIn"]}
{"id": "C95", "title": "A loaded slot gets one whole frame", "statement": "Under the conditions of C94, with both clocks running and frames of m words arriving, a slot that software loads while no other slot is loaded and no capture is going on is eventually marked as filled; between the load and that moment exactly the m words of one frame have been written, in order, to the slot's buffer, and nothing else.", "quantifier": "every stream with frames of m words from some clock on, every slot number and buffer address, FIFO depth, pointer race, interleaving of the two clocks and pauses of the memory within the bounds", "why_tests_cant": "liveness over arbitrary interleavings and pause patterns", "anchors": ["litevideo/input/dma.py:DMA", "litevideo/input/dma.py:_Slot", "litevideo/input/dma.py:_SlotArray", "litevideo/input/analysis.py:FrameExtraction"]}
{"id": "C96", "title": "From the registers of the output to a filled slot of the receiver", "statement": "When software enables the output with registers of a legal mode, and software at the receiver later loads a slot with the frame size of that mode, the slot is eventually marked as filled, and its buffer then holds exactly the picture at the output's base address (with red and blue exchanged in rgb mode, as 4:2:2 in ycbcr422 mode), nothing else having been written; nothing is assumed about what the receiver loses, takes or does.", "quantifier": "everything C90 and C95 range over", "why_tests_cant": "composition of all units of transmitter and receiver in four clock domains, safety and liveness", "anchors": ["litevideo/output/core.py:Initiator", "litevideo/output/core.py:VideoOutCore", "litevideo/input/__init__.py:HDMIIn", "litevideo/input/analysis.py:FrameExtraction", "litevideo/input/dma.py:DMA"]}
{"id": "C97", "title": "Serial lines in between", "statement": "With the words of the output serialised onto three differential pairs by the transmitter of either FPGA family and sampled by the receiver of either family, at any pad polarity, any phase between the bit clock and the word clock and any line delay, the received words are the sent bit stream from some clock on; if the pairs differ by at most 70 bit times, a picture goes from the registers of the output to a filled slot of the receiver as in C96.", "quantifier": "both FPGA families at either end, all pad polarities, clock phases, line delays and skews in the bound, and everything C96 ranges over", "why_tests_cant": "composition down to single bits; arbitrary delays and phases", "anchors": ["litevideo/output/hdmi/s7.py:S7HDMIOutPHY", "litevideo/output/hdmi/s6.py:S6HDMIOutPHY", "litevideo/input/datacapture.py:S7DataCapture", "litevideo/input/datacapture.py:S6DataCapture", "litevideo/input/gearbox.py:Gearbox"]}
{"id": "C98", "title": "Two slots in turns never starve", "statement": "While frames of m words keep arriving and the memory keeps up (C94), and software never touches the registers of a loaded slot, every load of slot 0 or 1 is followed by the slot being marked as filled, whatever software does with the other slots and whenever it loads them; when it is, the last words that the DMA has written are one whole frame, in order, in that slot's buffer.", "quantifier": "every stream of whole frames, number of slots, instant of the load, behaviour of software on slots that are not loaded, interleaving of the clocks and pauses of the memory within the bounds", "why_tests_cant": "liveness and fairness over unbounded runs", "anchors": ["litevideo/input/dma.py:_SlotArray", "litevideo/input/dma.py:_Slot", "litevideo/input/dma.py:DMA"]}
{"id": "C99", "title": "Every loaded slot is served", "statement": "Under the conditions of C98, every load of any slot is followed by the slot being marked as filled.", "quantifier": "everything C98 ranges over, and every slot", "why_tests_cant": "starvation needs an unbounded run to show", "anchors": ["litevideo/input/dma.py:_SlotArray", "litevideo/input/dma.py:DMA"]}
{"id": "C100", "title": "The receiver's interrupt", "statement": "The interrupt line is high exactly while a slot whose interrupt is enabled is marked as filled. Under the conditions of C98 a load of slot 0 or 1 with its interrupt enabled is followed by an interrupt that stays until software writes the slot's status; there is no interrupt without a capture that has ended since software last wrote the status of an enabled slot; and writing the status with bit 1 clear acknowledges the interrupt, even in the clock in which a capture ends.", "quantifier": "every run of the receiver, enable register and behaviour of software, with C98's conditions for the second sentence", "why_tests_cant": "level-sensitive behaviour over arbitrary histories", "anchors": ["litevideo/input/dma.py:_Slot", "litevideo/input/dma.py:_SlotArray", "litevideo/input/dma.py:DMA", "litevideo/input/__init__.py:HDMIIn"]}
{"id": "C101", "title": "Bus values cross the clock domains whole", "statement": "When 126 source clocks span at least four system clocks, every value software reads of a bus from another clock domain (the tap positions of the delay lines) is a value that the bus had at one source clock edge, never a mixture of two, readings never go back in time, and a value that stays on the bus for a round trip is read.", "quantifier": "every interleaving of the two clocks within the ratio, every sequence of bus values, every resolution of the races of single bits, unbounded time", "why_tests_cant": "bitwise races at arbitrary clock phases", "anchors": ["litevideo/input/datacapture.py:S7DataCapture"]}
{"id": "C102", "title": "Series 7 delay taps follow the commands", "statement": "If software never gives two commands for a delay line within one clock of it, each command (reset, one tap up, one tap down) moves the line exactly once and in order, and once the last command is a round trip ago the tap that software reads is the one that the commands lead to, modulo 32.", "quantifier": "every sequence of commands and combination of command bits, every interleaving of the two clocks within the ratio of C101, every resolution of races", "why_tests_cant": "arbitrary clock phases and command histories", "anchors": ["litevideo/input/datacapture.py:S7DataCapture"]}
{"id": "C103", "title": "Software only reads resolutions that were measured", "statement": "Every value of the horizontal or vertical resolution register that software reads is one that the receiver has measured; over a link software reads the transmitter's programmed resolution after at most five frames, the link's delay and two system clocks, for ever.", "quantifier": "every video stream, counter width, interleaving of the pixel and system clocks and resolution of the races of single bits; for the second sentence every link of C71", "why_tests_cant": "mixtures of two measurements appear only at certain clock phases", "anchors": ["litevideo/input/analysis.py:ResolutionDetection"]}
{"id": "C104", "title": "The phase error register", "statement": "Software never reads both bits of the phase error register of a data pair set; once the accumulator has saturated, software reads too-late (1) or too-early (2) accordingly after two system clocks, until it resets the phase.", "quantifier": "both FPGA families, every accumulator width of at least two bits, every sequence of transitions and resets, every interleaving of the two clocks and resolution of the races of single bits", "why_tests_cant": "races of two bits at arbitrary clock phases", "anchors": ["litevideo/input/datacapture.py:S6DataCapture", "litevideo/input/datacapture.py:S7DataCapture"]}
{"id": "C105", "title": "The underflow count that software reads", "statement": "After software has written the update register, with at least one pixel clock between any two such writes, it reads, from the fourth pixel clock on and until its next request arrives, the number of pixel clocks without a pixel since the counter was enabled, up to the third pixel clock after its write, modulo 2^32.", "quantifier": "every interleaving of the system and pixel clocks, every history of enables, requests and missing pixels, unbounded time", "why_tests_cant": "arbitrary clock phases; a reading while the count arrives may mix two counts", "anchors": ["litevideo/output/core.py:VideoOutCore"]}
{"id": "C106", "title": "Clock ratios at any frequency", "statement": "The configured multipliers and dividers give, at every input frequency, a bit clock ten times and a half-word clock twice the pixel clock on Spartan-6 (receiver and transmitter), an 8-bit word clock 5/4 and a double-rate bit clock 5 times the pixel clock in the Series 7 receiver, for both MMCM outputs and the split PLL, and a double-rate bit clock 5 times the pixel clock in the Series 7 transmitter, whose pixel clock is 3/2 of its base clock.", "quantifier": "every input frequency (a rational number)", "why_tests_cant": "a simulation fixes one frequency; the configuration strings are only used by the vendor tools", "anchors": ["litevideo/input/clocking.py:S6Clocking", "litevideo/input/clocking.py:S7Clocking", "litevideo/output/hdmi/s6.py:S6HDMIOutClocking", "litevideo/output/hdmi/s7.py:S7HDMIOutClocking"]}
{"id": "C107", "title": "VCO frequencies in the documented range", "statement": "For every input frequency that the Series 7 receiver clocking accepts, and for the transmitter at its reset configuration, the oscillators run inside the ranges that the code documents (MMCM 600 to 1440 MHz, PLL 800 to 1866 MHz).", "quantifier": "every accepted input frequency", "why_tests_cant": "not visible in simulation: the primitives are vendor instances", "anchors": ["litevideo/input/clocking.py:S7Clocking", "litevideo/output/hdmi/s7.py:S7HDMIOutClocking"]}
{"id": "C108", "title": "Series 7 receiver after lock", "statement": "Whenever the receiver's MMCM locks, from whatever state the gearbox and the reset synchronisers are in, the words that the receiver hands on are the sent bit stream at one fixed offset, from at most four pixel clocks after the lock on, at most four groups of eight bits being skipped.", "quantifier": "every previous state, instant of the lock, phase of the clocks at the lock, resolution of the races of the reset releases, line delay, pad polarity and sent stream", "why_tests_cant": "the outcome depends on the order in which two asynchronous reset releases are seen", "anchors": ["litevideo/input/clocking.py:S7Clocking", "litevideo/input/datacapture.py:S7DataCapture"]}
{"id": "C109", "title": "The half-float reference functions", "statement": "The reference that the test benches compare against agrees with the converters: for every half below 1.0 the reference pixel is the converter's output, for every 8-bit pixel the reference half is that of the lookup converter and exact, and the two are inverse to each other; every finite half of either sign is decoded to its value.", "quantifier": "every pixel, every half-precision pattern, every valid and ready schedule", "why_tests_cant": "test benches trust the reference; they run it on one image", "anchors": ["litevideo/csc/test/common.py:int2float", "litevideo/csc/test/common.py:float2int", "litevideo/float_arithmetic/test/common.py:binint2float", "litevideo/csc/rgb16f2rgb.py:RGB16f2RGB", "litevideo/csc/rgb2rgb16f.py:RGB2RGB16f"]}
{"id": "C110", "title": "Packing of test images", "statement": "Packing the components of an image into words and unpacking them gives each component modulo its width, and unpacking and packing gives each word modulo three widths; images in range are therefore kept exactly.", "quantifier": "images of every size, components of every width and value", "why_tests_cant": "unbounded images", "anchors": ["litevideo/csc/test/common.py:RAWImage"]}
{"id": "C111", "title": "Chroma resampling in a chain", "statement": "An image of YCbCr pixels sent through the downsampler and the upsampler in a chain, as the library's test bench connects them, comes out with the luma of every pixel kept, in order, and each chroma replaced by the mean over its pair, whenever the image starts and however the receiver pauses; at most seven pixels are inside and the chain never deadlocks.", "quantifier": "images of every length and content delivered without gaps, every start time, every ready schedule, what came before and after", "why_tests_cant": "the outcome depends on the clock in which the image starts; the bench uses one", "anchors": ["litevideo/csc/ycbcr444to422.py:YCbCr444to422", "litevideo/csc/ycbcr422to444.py:YCbCr422to444", "litevideo/csc/test/ycbcr_resampling_tb.py:TB"]}
{"id": "C112", "title": "Colours through a 4:2:2 capture and output", "statement": "When a line captured in ycbcr422 mode is shown in ycbcr422 mode, every component of every pixel comes back within 18 steps plus the chroma difference of its pair, within 4 plus that if the pixel does not saturate the conversion, and within 17 (3) if the chroma of the pair is equal.", "quantifier": "lines of every even length, every content, pack factor and what came before", "why_tests_cant": "all pairs of pixels and unbounded lines", "anchors": ["litevideo/input/analysis.py:FrameExtraction", "litevideo/output/__init__.py:VideoOut", "litevideo/csc/rgb2ycbcr.py:RGB2YCbCr", "litevideo/csc/ycbcr2rgb.py:YCbCr2RGB"]}
{"id": "C113", "title": "Moving the picture while the output runs", "statement": "Software may rewrite the base address at any time while the video output runs. The scan goes on undisturbed. Every frame shows at most two pictures: its first pixels, no more than the reader's buffer holds, come from one and all the others from the other, and both addresses were in the register at most four frames before the frame began. Once a new address stays in the register, the old picture is no longer read after four further frame changes, and every frame from the next on is the new picture throughout (double buffering).", "quantifier": "every schedule of register writes that keeps the mode and the length, every pair of clocks with four sys edges per frame, race of the FIFO's synchronisers, memory timing, picture size and reader depth up to one picture", "why_tests_cant": "the schedules of the writes against the frame, and the depth of the FIFO against the buffer, cannot be enumerated", "anchors": ["litevideo/output/core.py:Initiator", "litevideo/output/core.py:DMAReader", "litevideo/output/core.py:VideoOutCore"]}
{"id": "C114", "title": "Colour conversion at every width", "statement": "For every coefficient width and every pixel widths with ycbcr_w <= rgb_w + 3, RGB2YCbCr computes, without overflow, the documented formula with coefficients that are 0.1819, 0.0618, 0.5512 and 0.6495 rounded down to the coefficient width; the result is off the exact conversion by at most one step for luma and 1.65 for chroma plus a few relative errors of the coefficients at full scale. The same holds for YCbCr2RGB when rgb_w <= ycbcr_w + 1. These limits on the widths are sharp.", "quantifier": "all widths, all pixels, all states of the pipelines and handshake schedules", "why_tests_cant": "unbounded widths; a simulation fixes the three parameters", "anchors": ["litevideo/csc/rgb2ycbcr.py:RGB2YCbCr", "litevideo/csc/ycbcr2rgb.py:YCbCr2RGB", "litevideo/csc/common.py:coef", "litevideo/csc/common.py:saturate"]}
{"id": "C115", "title": "There and back at every width", "statement": "With at least six more coefficient bits than pixel bits, a colour that does not saturate the YCbCr code comes back from RGB2YCbCr followed by YCbCr2RGB with red and blue at most two steps lower and green at most three steps lower, never higher.", "quantifier": "pixel widths from 4 to 40 bits, all larger coefficient widths, all pixels inside the code's range, all pipeline states", "why_tests_cant": "2^(3w) colours for each width", "anchors": ["litevideo/csc/rgb2ycbcr.py:RGB2YCbCr", "litevideo/csc/ycbcr2rgb.py:YCbCr2RGB"]}
{"id": "C116", "title": "The receiver may lock at any time", "statement": "The transmitter may have been running for any time when the receiver's clock generator locks. At most four pixel clocks later, whatever state the receive path was in and whichever reset synchroniser misses an edge, the words of all three channels are those being sent, displaced by one common number of bits plus the delays of the pairs. From there on, as soon as the output no longer underflows, the receiver reports the resolution and a slot that software loads is filled with the picture, in both pixel formats.", "quantifier": "every lock instant and number of bits sent before, both families at either end, polarities, clock phases and ratios of instants, races of the reset synchronisers, pair delays differing by up to seven pixel clocks, all states before the lock, all modes and pictures", "why_tests_cant": "the lock instant against the transmitter's bit stream and the races of the resets cannot be enumerated", "anchors": ["litevideo/input/clocking.py:S6Clocking", "litevideo/input/clocking.py:S7Clocking", "litevideo/input/datacapture.py:S6DataCapture", "litevideo/input/datacapture.py:S7DataCapture", "litevideo/input/charsync.py:CharSync", "litevideo/input/chansync.py:ChanSync"]}
{"id": "C117", "title": "Synchronisation registers", "statement": "Over a link joined at any time and from any receiver state, once thirty blank characters have passed the char_synced register of each channel reads 1 and its ctl_pos register reads the number of bits by which the words of that channel are displaced; after the following line the channels_synced register reads 1; they read so for ever, whatever is sent afterwards. For any received bits at all, legal or not, char_synced reads 0 or 1, it reads 1 only if eight consecutive control words were received at one bit position, and then for ever.", "quantifier": "every pixel stream with the blanking, every join instant, pair delay, receiver state, pair of clocks and race of the synchronisers; every bit stream for the second part", "why_tests_cant": "unbounded streams and clock schedules", "anchors": ["litevideo/input/charsync.py:CharSync", "litevideo/input/chansync.py:ChanSync"]}
{"id": "C118", "title": "Raw mode from the registers", "statement": "When the registers are programmed and the output enabled in raw mode, the serialisers get the words of the buffer in order, each once, over and over. Whatever the memory does, each pass over the buffer costs a clock without a word, so the raw signal always has gaps; with a memory that accepts and answers in every clock there is exactly one gap before each pass. A buffer with a recorded frame of a transmitter that shows a picture, less its first word, is therefore played back as exactly that transmitter's signal for ever, but for one word in every frame.", "quantifier": "every register contents, memory contents and timing, pair of clocks with four sys edges per frame, buffer length; every mode and picture that was recorded and instant of the recording", "why_tests_cant": "unbounded runs and all memory schedules; a test sees a few passes", "anchors": ["litevideo/output/core.py:Initiator", "litevideo/output/core.py:DMAReader", "litevideo/output/core.py:VideoOutCore", "litevideo/output/__init__.py:VideoOut"]}
{"id": "C119", "title": "Buffer size that rules out underflow", "statement": "If a read comes back at most lat clocks after its command and the memory refuses commands in at most s clocks of any frame's time, a reader buffer of lat + s + 2 words and a blanking of s + 3 clocks per frame suffice: the buffer fills by at least the spare clocks of the blanking in every frame until it has been full once, and from then on a word is there in every clock, so the output never underflows again. With such a memory the way from the output's registers to a filled slot of a receiver that locks at any time needs no assumption about underflows.", "quantifier": "every mode, picture, memory schedule within the two limits, buffer depth, latency and refusal count, pair of clocks with four sys edges per frame", "why_tests_cant": "adversarial memory schedules over unbounded time", "anchors": ["litevideo/output/core.py:DMAReader", "litevideo/output/core.py:VideoOutCore", "litevideo/output/core.py:TimingGenerator"]}
{"id": "C120", "title": "4:2:2 output from the registers", "statement": "When the registers are programmed and the output enabled in ycbcr422 mode, the PHY is given the syncs of the programmed scan six clocks after the core produces them. However the memory delays the words of a line, the two pixels of every pair are converted from exactly the luma of each word, the blue chroma of the first and the red chroma of the second, and given to the PHY six and seven clocks after the second word of the pair. Without underflows, a receiver that locks at any time reports the programmed resolution and fills its slot with the converted picture one pixel further right than in the transmitter's memory: column x of a line holds the picture's pixel x - 1, for every column but the first.", "quantifier": "every register contents, memory contents and timing, pair of clocks with four sys edges per frame, mode of even width with the blanking of the link, join instant, pair delays; every stream of words with gaps for the second part", "why_tests_cant": "all gap patterns in the words and unbounded runs; a test bench drives the converters without gaps", "anchors": ["litevideo/output/__init__.py:VideoOut", "litevideo/output/__init__.py:TimingDelay", "litevideo/output/core.py:VideoOutCore", "litevideo/csc/ycbcr422to444.py:YCbCr422to444", "litevideo/csc/ycbcr2rgb.py:YCbCr2RGB"]}
{"id": "C121", "title": "Slot address register", "statement": "While software does not touch the status of a loaded slot, every field of a slot's address register keeps the value software last wrote to it for as long as the slot is not loaded, whether the register is written at once or part by part and whatever is captured into the other slots meanwhile. In continuous operation a slot loaded after its address was written with v is filled with one whole frame at word address v / 2^align, reduced to the width of the port, and at no other address.", "quantifier": "every width of port and alignment, number of slots, field of the register, program of the two kinds of register writes that leaves loaded slots alone, clocks, memory timing and stream of pixels", "why_tests_cant": "all interleavings of register writes and completions; a test programs one slot once", "anchors": ["litevideo/input/dma.py:_Slot", "litevideo/input/dma.py:_SlotArray", "litevideo/input/dma.py:DMA"]}
{"id": "C122", "title": "Both Spartan-6 delay lines through one register", "statement": "If software writes commands for a delay line only while that line's bit of dly_busy reads 0, then whenever the bit reads 0 the line has been told exactly the bits of its latest command (calibrate, up, down) exactly once and has been ready since, whatever is written for the other line, whatever the resets and the phase detector do; a line is never told anything before it has been ready after what it was told before; the lines have been told as many steps up and down as software has written; and the bits return to 0. Looking at one of the two bits only is not enough: the other line can be told to step while it still calibrates.", "quantifier": "every interleaving of the two clocks, every sequence of writes to the command register, every busy behaviour of the two lines", "why_tests_cant": "eight synchronisers and two handshakes under arbitrary clock schedules", "anchors": ["litevideo/input/datacapture.py:S6DataCapture"]}
{"id": "C123", "title": "Resets of the Spartan-6 delay lines arrive", "statement": "A reset of a delay line that software writes while both busy bits read 0 reaches the line.", "quantifier": "every interleaving of the two clocks, every sequence of writes to the command register", "why_tests_cant": "clock ratios and phases are unbounded", "anchors": ["litevideo/input/datacapture.py:S6DataCapture"]}
{"id": "C124", "title": "What the phase register means", "statement": "Software reads 'too late' ('too early') from the phase register only if the votes of the phase detector since the last reset have reached the upper (lower) limit, and reads it two system clocks after they have.", "quantifier": "every accumulator width from 2 bits, every interleaving of the clocks, every sequence of votes, busy signals and resets, every resolution of the bits of the accumulator sampled while it changes", "why_tests_cant": "races of single bits at arbitrary clock phases", "anchors": ["litevideo/input/datacapture.py:S6DataCapture", "litevideo/input/datacapture.py:S7DataCapture"]}
{"id": "C125", "title": "Moving pictures from memory to memory", "statement": "The transmitter's software moves the base address of the picture whenever it likes, and the receiver's software keeps programming and loading slots 0 and 1 without touching loaded ones. Each load is answered: the slot stays loaded until it is marked as filled, and by then the buffer whose address software wrote holds one whole frame and nothing else has been written. The frame shows two pictures of the transmitter's memory at most, the first only in as many pixels as the transmitter's reader can buffer, and both were in the transmitter's registers at most four frames earlier; it is not older than the last frame that began to arrive before the words in flight were gone. Once a new address stays in the transmitter's registers, every slot loaded after the fifth following frame has begun to arrive holds the new picture and nothing but it. Both in rgb and in ycbcr422 mode, for a receiver that starts at any time.", "quantifier": "every schedule of base address writes, program of slot writes that leaves loaded slots alone, mode with the blanking of the link, picture and memory contents, clocks, memory timing within the stated rates, pair delays, start instant and initial state of the receiver", "why_tests_cant": "the interleavings of two programs, four clocks and two memories are unbounded", "anchors": ["litevideo/output/core.py:Initiator", "litevideo/output/core.py:VideoOutCore", "litevideo/input/dma.py:DMA", "litevideo/input/analysis.py:FrameExtraction", "litevideo/input/__init__.py:HDMIIn"]}
{"id": "C126", "title": "Moving pictures without underflow, from lock to slot", "statement": "The buffer size that rules out underflow for a fixed picture (a read comes back at most lat clocks after its command, at most s refusals in any frame's time, lat + s + 2 words of buffer and s + 3 clocks of blanking) does so too while software moves the base address whenever it likes: after the start-up frames a word is there in every clock. With such a memory, a receiver whose clock generator locks at any time and whose slots are loaded in turn receives whole frames of at most two pictures each, and the new picture alone from the fifth frame after a change on, in rgb and in ycbcr422 mode, without any assumption about underflows.", "quantifier": "every schedule of base address writes, memory schedule within the two limits, buffer depth, mode with the blanking of the link, receiver family, lock instant, polarity, pair delays, program of slot writes that leaves loaded slots alone", "why_tests_cant": "adversarial memory schedules combined with register writes at any clock, over unbounded time", "anchors": ["litevideo/output/core.py:DMAReader", "litevideo/output/core.py:VideoOutCore", "litevideo/output/core.py:Initiator", "litevideo/input/clocking.py:S7Clocking", "litevideo/input/dma.py:DMA"]}
{"id": "C127", "title": "Changing the mode of a running output", "statement": "Software rewrites the mode and picture registers of an enabled output one by one. Every frame shown is a complete scan of one register contents that was there at most four frame ends before; only its first words, at most as many as the reader's buffer holds, come from the picture shown before, and the reader never asks for a word outside the picture being shown. Once the registers hold a mode and a picture of its size for good, after five frames the output shows exactly that mode and that picture, each pixel in its place, for ever.", "quantifier": "every sequence of register contents, memory contents and timing, buffer depth, pair of clocks with four sys edges per frame", "why_tests_cant": "the interleavings of register writes, frame ends, FIFO entries and memory answers are unbounded", "anchors": ["litevideo/output/core.py:Initiator", "litevideo/output/core.py:DMAReader", "litevideo/output/core.py:TimingGenerator", "litevideo/output/core.py:VideoOutCore"]}
{"id": "C128", "title": "Both Series 7 delay lines through one register", "statement": "Software writes words to dly_ctl that tell each delay line at most one thing (back to tap 0, up, or down) and leaves a clock of the delay lines between writes. At every instant both lines have carried out, in order and once each, exactly the writes up to one common clock three clocks ago; only a write in that very clock may have reached just one of them. Once the last write is long enough ago both tap registers read the taps that the writes ask for. While only words that move both lines together are written, the distance of the lines stays, and is never more than one tap off on the way. Neither condition on the writes can be dropped.", "quantifier": "every interleaving of the two clocks, every resolution of every synchroniser's race separately, every sequence of such writes", "why_tests_cant": "clock phases and five independent races are unbounded", "anchors": ["litevideo/input/datacapture.py:S7DataCapture"]}
{"id": "C129", "title": "A change of mode, seen at the receiver", "statement": "Software rewrites mode and picture of a running output; every register contents that the output takes over is a mode with the length of its picture, larger than the reader's buffer, and the registers then stay as they are. Five frames later (and without underflow from then on) a receiver that has been running all the time, in whatever state, without any reset or retraining: reports the new resolution from the sixth frame of the new mode on, modulo 2^11; and every slot of its DMA that software programs and loads after the fourth vertical sync is answered with the new picture, exactly and alone, in RGB and in 4:2:2.", "quantifier": "every sequence of earlier modes, new mode with the blanking of the link, picture contents, pair delays, start instant and initial state of the receiver, clocks, program of slot writes that leaves loaded slots alone", "why_tests_cant": "earlier streams are arbitrary, and so is the receiver's state when the new mode arrives", "anchors": ["litevideo/output/core.py:Initiator", "litevideo/output/core.py:VideoOutCore", "litevideo/input/charsync.py:CharSync", "litevideo/input/chansync.py:ChanSync", "litevideo/input/analysis.py:ResolutionDetection", "litevideo/input/analysis.py:FrameExtraction", "litevideo/input/dma.py:DMA"]}
{"id": "C130", "title": "The terminal from files and bus to the screen", "statement": "The terminal is built exactly if the screen file (if given) has 4800 and the font file (if given) 4096 bytes. Until the bus writes something, every frame shows what the two files say, a file that is not given counting as zeros; with the files that come with it all 256 characters can be read somewhere on the screen, dot by dot, in every frame. While the bus writes whenever it likes, in another clock, a pixel whose code, colours and font line keep their values while they are fetched shows what they say, however the other bytes change, and once the writes stop every pixel shows the bytes left by them. Outside the picture the screen is black throughout.", "quantifier": "every pair of files, every compliant bus master inside the RAM, every interleaving of the two clocks, every bit race at a common edge, every frame and pixel", "why_tests_cant": "unbounded frames and interleavings of two clocks; arbitrary file contents", "anchors": ["litevideo/terminal/core.py:Terminal", "litevideo/terminal/core.py:read_ram_init_file", "litevideo/terminal/screen-init.bin", "litevideo/terminal/cp437.bin"]}
{"id": "C131", "title": "An HDMI source at the HDMI receiver", "statement": "A source sends HDMI with guard bands and data islands; the receiver is built with hdmi=True and its DVI bit is clear. After one blanking, line and blanking of the source the receiver, from any state, shows it with one constant delay for ever: data enable is high exactly for the pixels and never in guard bands or data islands, but the colours beside it are those of the next clock, so every line is delivered and stored without its first pixel and with one pixel of the following control character at its end. The sync outputs are those of the last control character, whatever the polarity, so a sync edge inside a data island is seen at its end. The width register reads the number of pixels of the last line ended, the height register the number of lines ended between the last two rises of the received vsync, both modulo 2^11, and the words captured between two rises hold the delivered pixels in order.", "quantifier": "every source that keeps the order of HDMI periods (any contents, number and length of lines and data islands, preambles or none) and does not code the first pixel of a line by guard band words, every skew of up to seven words, bit phase of each channel, initial state of the receiver, polarity, pack factor above one", "why_tests_cant": "streams are unbounded and the period tracker's states depend on the whole order of periods; existing tests have no data island", "anchors": ["litevideo/input/decoding.py:DecodeTERC4", "litevideo/input/__init__.py:HDMIIn", "litevideo/input/analysis.py:SyncPolarity", "litevideo/input/analysis.py:ResolutionDetection", "litevideo/input/analysis.py:FrameExtraction", "litevideo/input/chansync.py:ChanSync", "litevideo/input/charsync.py:CharSync"]}
{"id": "C132", "title": "Data islands at the HDMI receiver", "statement": "Behind an HDMI source the receiver tracks its periods, from any state and with one constant delay, for ever: the video flag is high exactly for the pixels; for a data island that comes after two or more characters of its preamble the island flag is high from its leading to its trailing guard band and the data flag exactly for the clocks with packets; both stay low outside islands, and in islands whose last control character before it is not of the preamble. The nibble outputs show every nibble of every packet in order but one clock before the flags, so a reader that samples channels 1 and 2 while the data flag is high misses the first nibble and gets the last one twice.", "quantifier": "every source that keeps the order of HDMI periods, every length and contents of islands, skew of up to seven words, bit phase of each channel, initial state of the receiver", "why_tests_cant": "the tracker's state depends on the whole history of periods; the repository's code is marked untested", "anchors": ["litevideo/input/decoding.py:DecodeTERC4", "litevideo/input/decoding.py:DecodeTERC4Channel", "litevideo/input/__init__.py:HDMIIn"]}
{"id": "C133", "title": "EDID reads at the pins", "statement": "An I2C master with the timing of the standard mode (SCL low 4.7 us, SDA steady 250 ns before SCL rises, SCL high 4 us, start condition 4 us, or longer) and a system clock of 100 MHz finds the bus free, addresses 0x50, writes an offset, restarts and reads n bytes, looking at SDA once in each high phase of SCL, in whichever clock of it. It reads the acknowledges and the bytes from the offset on.", "quantifier": "every earlier history, memory contents, offset, n, duration of every phase in clocks above the limits, clock of every look", "why_tests_cant": "phases are sampled every 64 clocks, so behaviour depends on unbounded durations modulo 64; there is no test of the EDID slave", "anchors": ["litevideo/input/edid.py:EDID"]}
{"id": "C134", "title": "Every pinout of the EDID slave", "statement": "On a board with pull-up resistors, with SCL and SDA direct or behind inverters and SDA on one pin or on separate pins for reading and pulling, a master with the timing proved for C133 reads the memory; the slave never drives SDA high; software reads the level of the hot-plug pin of two clocks before, the right way round, or a 1 if there is no such pin.", "quantifier": "every combination of pads, master, memory contents, history", "why_tests_cant": "the variants are chosen when the design is built; no test builds any of them", "anchors": ["litevideo/input/edid.py:EDID"]}
{"id": "C135", "title": "The reader stays in its buffer", "statement": "Whatever the delay_base register and the frame given to it, the frame reader only reads words of the frame's buffer and then finishes the frame.", "quantifier": "every delay, base and length, address width, earlier history, pattern of memory ready", "why_tests_cant": "a pass has up to 2^aw words; the delay register (in words) and the length (in bytes) are written by software independently", "anchors": ["litevideo/output/core.py:DMAReader"]}
{"id": "C136", "title": "A filled slot holds one frame whatever the frame size register", "statement": "Whatever frame size software has set, a filled slot holds words of one incoming frame only.", "quantifier": "every frame size and frame length, clock ratio, pause of the memory, picture contents, slot and instant of loading, in every run in which the memory keeps up", "why_tests_cant": "frame size register and incoming resolution are independent; runs are unbounded", "anchors": ["litevideo/input/dma.py:DMA", "litevideo/input/analysis.py:FrameExtraction"]}
{"id": "C137", "title": "From an HDMI source to a filled slot", "statement": "A source sends HDMI with data islands and frames of F*m pixels; the receiver is built with hdmi=True and its DVI bit is clear. Once it has locked and one frame has passed, every slot that software loads while no other is loaded is filled, and then holds exactly one picture of the source, F pixels per word with the first in the highest lane (every pixel being replaced by what follows it, see C131); nothing else is written. Data islands, guard bands and preambles never reach the memory.", "quantifier": "every source that keeps the order of HDMI periods, every skew, bit phase and initial state of the receiver, sync polarity, clock ratio and memory pauses within the bounds of C94, instant of loading, memory contents", "why_tests_cant": "composition over unbounded runs of receiver, two clocks and memory; no test has data islands", "anchors": ["litevideo/input/__init__.py:HDMIIn", "litevideo/input/decoding.py:DecodeTERC4", "litevideo/input/analysis.py:FrameExtraction", "litevideo/input/dma.py:DMA"]}
{"id": "C138", "title": "From an HDMI source to a filled slot in ycbcr422 mode", "statement": "As C137, with the receiver in ycbcr422 mode (the default of HDMIIn): if lines have an even number of pixels and nine clocks between them, and the last pixel of a frame comes more than eleven clocks before vsync rises, every loaded slot is filled and then holds exactly one picture of the source, F 16-bit pixels per word: luma of each pixel in the low byte, above it the mean of the blue differences of its pair of pixels for the first of the pair and that of the red ones for the second, pairs counted from the start of the line.", "quantifier": "every source that keeps the order of HDMI periods, every skew, bit phase and initial state of the receiver, sync polarity, clock ratio and memory pauses within the bounds of C94, instant of loading, memory contents", "why_tests_cant": "composition over unbounded runs of receiver, colour converter, two clocks and memory; no test has data islands", "anchors": ["litevideo/input/__init__.py:HDMIIn", "litevideo/input/analysis.py:FrameExtraction", "litevideo/csc/rgb2ycbcr.py:RGB2YCbCr", "litevideo/csc/ycbcr444to422.py:YCbCr444to422", "litevideo/input/dma.py:DMA"]}
{"id": "C139", "title": "Pictures reach memory in the order they arrive", "statement": "Under the conditions of C98, once the words older than the first frame are gone, every capture that starts comes to an end. A slot is loaded from its start to its end and is then marked as filled. In between, memory receives exactly one incoming frame in that slot's buffer and nothing else, and no other capture starts; nothing is written until the next start. Of any two captures the later one holds a later frame: no frame is captured twice, and none is captured after a newer one.", "quantifier": "every number of slots, schedule of loads by polite software, clock ratio, pause of the memory within the bounds of C94, frame length and contents, in unbounded runs", "why_tests_cant": "ordering over all pairs of captures in an unbounded run, for every interleaving of two clocks and software", "anchors": ["litevideo/input/dma.py:DMA", "litevideo/input/dma.py:_SlotArray", "litevideo/input/analysis.py:FrameExtraction"]}
{"id": "C140", "title": "No picture is missed while a slot is loaded", "statement": "Under the conditions of C98, if another slot is loaded when a slot has been filled, the next capture holds the very next frame. (False: the DMA may stay on the filled slot for one more clock and throw away a waiting first word, and with it the whole frame. Then at most one frame is missed; none if a slot with a lower number was loaded, and none if the next frame has not begun by the first sys clock after the slot was marked.)", "quantifier": "every number of slots, schedule of loads by polite software, clock ratio, pause of the memory within the bounds of C94, frame length and contents, in unbounded runs", "why_tests_cant": "needs a first word waiting in the FIFO in exactly one clock after a capture with a slow last write", "anchors": ["litevideo/input/dma.py:DMA", "litevideo/input/dma.py:_SlotArray"]}
{"id": "C141", "title": "A slot is filled soon after its frame has arrived", "statement": "Under the conditions of C98, let the memory pause for at most K clocks, take at most E more for its last write, and let words arrive at the rate of C94 up to a burst of B clocks. Then a slot that receives a frame is marked as filled at most B + 3E + 2K + 11 sys clocks after the last word of that frame left the packer.", "quantifier": "every number of slots, schedule of loads by polite software, clock ratio, pause of the memory within the bounds of C94, frame length and contents, capture of an unbounded run", "why_tests_cant": "a latency bound over every interleaving of two clocks, FIFO filling and memory pauses", "anchors": ["litevideo/input/dma.py:DMA", "litevideo/input/analysis.py:FrameExtraction"]}
{"id": "C142", "title": "Captures go on without end and skip nothing when there is time between frames", "statement": "Under the conditions of C98, let software always have another slot loaded when one is filled. Then after every capture there is an N-th next capture for every N, it holds one incoming frame, and at least every second frame is captured. If there are more than B + 3E + 2K + 11 sys clocks between the last word of each frame and the next frame, the N-th next capture holds the N-th next frame: no frame is missed for ever.", "quantifier": "every number of slots, schedule of loads by quick and polite software, clock ratio, pause of the memory within the bounds of C94, frame length and contents, N", "why_tests_cant": "a statement about infinitely many captures of an unbounded run", "anchors": ["litevideo/input/dma.py:DMA", "litevideo/input/dma.py:_SlotArray", "litevideo/input/analysis.py:FrameExtraction"]}
{"id": "C143", "title": "All pictures of an HDMI source reach memory", "statement": "A source as in C137 and software that never writes a register of a loaded slot. A capture starts whenever the DMA is idle and a slot is loaded. Every capture puts exactly one picture of the source into one slot's buffer and nothing else, a later picture than all captures before, and ends at most B + 3E + 2K + 11 sys clocks after the picture's last pixel has left the receiver. If another slot is always loaded when one is filled, captures go on for ever and at least every second picture is stored; every picture is, if more sys clocks than that lie between the last pixel of each and the next rise of vsync.", "quantifier": "every source that keeps the order of HDMI periods, every skew, bit phase and initial state of the receiver, sync polarity, clock ratio and memory pauses within the bounds of C94, number of slots, schedule of loads, number of captures", "why_tests_cant": "infinitely many captures of an unbounded run of receiver, two clocks, memory and software", "anchors": ["litevideo/input/__init__.py:HDMIIn", "litevideo/input/analysis.py:FrameExtraction", "litevideo/input/dma.py:DMA", "litevideo/input/dma.py:_SlotArray"]}
{"id": "C144", "title": "Two slots and a driver that loads them again capture every frame", "statement": "The receiver in a closed loop with a driver that, from some instant on, writes 1 to the status register of a slot that is not loaded (slot 0 first, one write per clock). The driver never writes a register of a loaded slot, and whenever one slot has been filled the other is loaded. Under the conditions of C94 a first capture starts, of a frame no later than the first one that begins after two sys clocks, and captures go on for ever; the N-th next one holds a frame N to 2N after the first, and exactly N if there are more than B + 3E + 2K + 11 sys clocks between frames.", "quantifier": "every environment of the receiver within the bounds of C94 (clock ratio, memory pauses, frame length and contents), instant at which the driver begins, N", "why_tests_cant": "a closed loop of hardware and software over an unbounded run", "anchors": ["litevideo/input/dma.py:DMA", "litevideo/input/dma.py:_SlotArray", "litevideo/input/dma.py:_Slot", "litevideo/input/analysis.py:FrameExtraction"]}
{"id": "C145", "title": "All pictures of an HDMI source reach memory in ycbcr422 mode", "statement": "A source as in C138 (lines of an even number of pixels, no pixel in the eleven clocks before vsync) and software that never writes a register of a loaded slot, with the receiver in its default ycbcr422 mode. A capture starts whenever the DMA is idle and a slot is loaded. Every capture puts exactly one picture, as 16-bit 4:2:2 pixels, into one slot's buffer and nothing else, a later picture than all captures before, and ends at most B + 3E + 2K + 11 sys clocks after the picture's last pixel has left receiver, colour conversion and packer. If another slot is always loaded when one is filled, captures go on for ever and at least every second picture is stored; every picture is, if more sys clocks than that lie between that moment and the next rise of vsync.", "quantifier": "every source that keeps the order of HDMI periods with paired lines, every skew, bit phase and initial state of the receiver, sync polarity, clock ratio and memory pauses within the bounds of C94, number of slots, schedule of loads, number of captures", "why_tests_cant": "infinitely many captures of an unbounded run of receiver, colour converters, two clocks, memory and software", "anchors": ["litevideo/input/__init__.py:HDMIIn", "litevideo/input/analysis.py:FrameExtraction", "litevideo/csc/rgb2ycbcr.py:RGB2YCbCr", "litevideo/csc/ycbcr444to422.py:YCbCr444to422", "litevideo/input/dma.py:DMA"]}
{"id": "C146", "title": "Raw mode locked to a stream resynchronises at every vsync", "statement": "The video output core in raw mode with a genlock stream, parameters constant. Let the memory take a command for every word of the buffer in each frame of the stream, and let after that at least as many clocks as the reader is deep deliver a word. Then whatever was on the way at the first vsync edge is sent in the first frame, and every later frame sends the words of the buffer from delay_base on, all of them, in order, and nothing else. If memory, stream and consumer are always ready and frames are longer than the pass by the depth of the reader and four clocks, word j of the buffer is sent exactly 5 + j clocks after the edge of vsync in every frame from the second on. The reader waits at a vsync edge, as the first frame needs, if since the output was enabled and since the edge before the memory has taken a command for every word. (In the other modes leftover words shift every later frame, C81.)", "quantifier": "every address width, buffer, delay, reader depth, genlock stream, schedule of memory and consumer, leftover words, number of frames", "why_tests_cant": "the reader's schedule and the number of frames are unbounded", "anchors": ["litevideo/output/core.py:VideoOutCore", "litevideo/output/core.py:DMAReader"]}
{"id": "C147", "title": "Any software that loads free slots at once keeps captures going", "statement": "Two slots or more. Software writes no status register before some instant; from then on, in every sys clock in which a slot is not loaded, it loads one of these slots, whichever it chooses; it never writes a register of a loaded slot. Then, under the conditions of C94, while a capture goes on two slots are loaded, a first capture starts, and captures go on for ever; the N-th next one holds a frame N to 2N after the first, and exactly N if there are more than B + 3E + 2K + 11 sys clocks between frames.", "quantifier": "every number of slots from two on, choice of the slot to load at each clock, instant of the beginning, environment within the bounds of C94, N", "why_tests_cant": "all policies of software over an unbounded run", "anchors": ["litevideo/input/dma.py:DMA", "litevideo/input/dma.py:_SlotArray", "litevideo/input/dma.py:_Slot", "litevideo/input/analysis.py:FrameExtraction"]}
{"id": "C148", "title": "Every picture of an HDMI source is stored", "statement": "An HDMI source as in C137 (rgb mode) or C138 (ycbcr422 mode), the receiver, its memory, two slots or more, and software as in C147. If more than B + 3E + 2K + 11 sys clocks lie between the moment the last pixel of each picture leaves the packer and the next vsync, then every picture whose first words leave the packer after the second sys clock of the software's activity is put, whole and alone, into the buffer of a slot, and the slot is marked as filled at most that many sys clocks after the picture's last pixel has left the packer.", "quantifier": "every source that keeps the order of HDMI periods, every skew, bit phase and initial state of the receiver, sync polarity, clock ratio and memory pauses within the bounds of C94, number of slots from two on, choices of the software, every later picture", "why_tests_cant": "all pictures of an unbounded run of source, receiver, two clocks, memory and software", "anchors": ["litevideo/input/__init__.py:HDMIIn", "litevideo/input/analysis.py:FrameExtraction", "litevideo/input/dma.py:DMA", "litevideo/input/dma.py:_SlotArray"]}
{"id": "C149", "title": "Every picture is stored if software loads slots again within one picture's worth of clocks", "statement": "Two slots or more, and any software under which, from some settled instant on, no slot stays without being loaded for more than D sys clocks, where D is less than the number m of memory words of a picture; software never writes a register of a loaded slot. Whenever a slot is marked as filled another one is loaded, so captures go on for ever as in C142. With an HDMI source as in C137 (rgb mode) or C138 (ycbcr422 mode) and more than B + 3E + 2K + 11 sys clocks between the last pixel of each picture and the next vsync, every picture whose first words leave the packer after D + 2 sys clocks is put, whole and alone, into the buffer of a slot, and the slot is marked as filled at most B + 3E + 2K + 11 sys clocks after the picture's last pixel has left the packer.", "quantifier": "every number of slots from two on, every software behaviour and reaction time below the bound, every source that keeps the order of HDMI periods, skew, bit phase, initial state, sync polarity, clock ratio and memory pauses within the bounds of C94, every later picture", "why_tests_cant": "the reaction time of software and the timing of source, memory and both clocks vary over an unbounded run", "anchors": ["litevideo/input/__init__.py:HDMIIn", "litevideo/input/dma.py:DMA", "litevideo/input/dma.py:_SlotArray", "litevideo/input/dma.py:_Slot", "litevideo/input/analysis.py:FrameExtraction"]}
{"id": "C150", "title": "The slots are a buffer for slow software", "statement": "Software loads all ns slots in fewer sys clocks than a picture has memory words, m, and from then on no slot stays without being loaded for more than D sys clocks, where D is less than (ns - 1) * m; it never writes a register of a loaded slot. Then at every instant some slot is loaded, whenever a slot is marked as filled another one is loaded, and captures go on for ever as in C142. With an HDMI source as in C137 (rgb mode) or C138 (ycbcr422 mode) and more than B + 3E + 2K + 11 sys clocks between the last pixel of each picture and the next vsync, every picture whose first words leave the packer after the slots have been loaded is put, whole and alone, into the buffer of a slot. So software may lag behind by almost ns - 1 pictures and loses none.", "quantifier": "every number of slots, every software behaviour and reaction time below the bound, every source that keeps the order of HDMI periods, skew, bit phase, initial state, sync polarity, clock ratio and memory pauses within the bounds of C94, every later picture", "why_tests_cant": "the reaction time of software and the timing of source, memory and both clocks vary over an unbounded run; a lost picture needs all slots to be empty at one instant", "anchors": ["litevideo/input/__init__.py:HDMIIn", "litevideo/input/dma.py:DMA", "litevideo/input/dma.py:_SlotArray", "litevideo/input/dma.py:_Slot", "litevideo/input/analysis.py:FrameExtraction"]}
{"id": "C151", "title": "Each load of a slot permits one capture at most", "statement": "From reset on, the number of captures begun and the number of slots the capture DMA has marked as filled never exceed the number of times software has written LOADED (an odd value) into the status register of a slot; with the frame size register at m words, m at least one, the DMA has written at most m words to memory per such write. This holds for every behaviour of software, including writes to slots in use, of the pixel stream and of the memory.", "quantifier": "every number of slots from one on, all software writes at all clocks, all streams and memory schedules, every clock", "why_tests_cant": "the number of clocks is unbounded, and software may reload, unload or write the slot in use at any clock of a capture", "anchors": ["litevideo/input/dma.py:DMA", "litevideo/input/dma.py:_SlotArray", "litevideo/input/dma.py:_Slot"]}
{"id": "C152", "title": "The slot marked as filled is the one whose buffer was written", "statement": "When a capture ends, the slot marked as filled (PENDING) is the slot whose buffer the words of the capture were written to, and its address register holds the end of these words.", "quantifier": "every number of slots, all software writes at all clocks, including to the slot in use, all streams and memory schedules, every non-zero frame size", "why_tests_cant": "software may write any register at any clock of a capture, and the number of clocks is unbounded", "anchors": ["litevideo/input/dma.py:DMA", "litevideo/input/dma.py:_SlotArray", "litevideo/input/dma.py:_Slot"]}
{"id": "C153", "title": "A loaded slot is passed over at most once per load of a lower slot", "statement": "Software never writes the status register of a loaded slot. While a slot stays loaded, the number of captures that end is at most one (the capture under way when it was loaded), plus the number of slots with lower numbers that were loaded at that time, plus the number of times software has loaded slots with lower numbers since. So a loaded slot is filled at the latest when more captures than that have ended. The bound is reached.", "quantifier": "every number of slots, every slot, all software writes at all clocks, all streams and memory schedules, every interval of clocks", "why_tests_cant": "the interval and the schedules of software, stream and memory are unbounded", "anchors": ["litevideo/input/dma.py:_SlotArray", "litevideo/input/dma.py:DMA", "litevideo/input/dma.py:_Slot"]}
{"id": "C154", "title": "A loaded slot is filled unless lower slots are loaded for ever", "statement": "Under the conditions of C98 (frames keep arriving, the memory keeps up, software writes no register of a loaded slot), a slot that is loaded at some instant after which software loads slots with lower numbers only finitely often stays loaded until it is filled, and it is filled. In particular slot 0 always is. (C99 shows that the condition is needed from slot 2 on.)", "quantifier": "every number of slots, every slot, every instant, every bound on the later loads of lower slots, every environment within the bounds of C94", "why_tests_cant": "liveness over an unbounded run of two clocks, stream, memory and software", "anchors": ["litevideo/input/dma.py:_SlotArray", "litevideo/input/dma.py:DMA", "litevideo/input/dma.py:_Slot", "litevideo/input/analysis.py:FrameExtraction"]}
