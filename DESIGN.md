# Formal model of litevideo in Rocq

The code under study is `/repo/litevideo` (Migen/LiteX gateware generators in Python).
Each Python class elaborates to a synchronous circuit.
The model gives each class a Gallina transition function and the theorems quantify over every input stream and every clock cycle.

## 1. Modelling method

* A circuit is a record of registers `S`, a reset value `init : S`, a total function `step : S -> I -> S` for the clock edge, and output functions `out : S -> I -> O` for combinational outputs.
* `Hdl.at_ step init i n` is the register state at the beginning of clock `n` when the input during clock `k` is `i k`.  Inputs are arbitrary functions `nat -> I`, so a theorem `forall i n, ...` covers every history and every cycle, with no bound.
* Register values are `Z` (or `bool` for one-bit signals).  Every assignment to a Migen `Signal(n)` is written with the truncation Migen and Verilog perform (`trunc n x = x mod 2^n`, `strunc` for signed signals), so overflow is part of the model, never assumed away.
* Migen `sync` statements read old values; the last assignment wins; `If/Elif/Else`, `Case`, `FSM`, `NextValue`, `CEInserter`, `ResetInserter` are unfolded by hand in the `step` functions.
* Stream components are modelled with their ready/valid handshakes, and the environment (upstream valid, downstream ready, software writes, received bits) is an arbitrary input stream.
* A property is stated with a small specification of its own (`*Spec.v`): list functions, counting functions, the DVI 1.0 algorithm, exact arithmetic... The `*Model.v` files contain no proofs, the `*Proofs.v` files contain lemmas, and the `*Props.v` files contain the final theorems, each with `Print Assumptions` and a concrete example that meets its hypotheses.
* When a property is false of the code, the theorem has suffix `_refuted` and exhibits a reachable counterexample; the strongest true part we could state is proved next to it with suffix `_partial` (or, when the guard is part of the property, without suffix).

## 2. Trusted base

* Coq 8.16.1 kernel (including `vm_compute`), and the standard library only (ZArith, QArith, List, Bool, Arith, Lia, Lqa, Floats.SpecFloat).  No plugin, no axiom.
* `Print Assumptions` is run in the `*Props.v` files on every theorem listed in `MANIFEST.json`.  The answer is "Closed under the global context" for each of them: no theorem depends on any axiom, of the standard library or otherwise.  (Loading the standard library's tactics brings axioms of `Coq.ssr.ssrunder` into the environment; no theorem here uses them.)
* The hand translation from Python/Migen to Gallina.  Each definition cites the lines it models.
* The semantics of external building blocks, which are not in `/repo` and are modelled from their documented behaviour:
  Migen `Signal` truncation, `sync`/`comb`, `FSM`, `CEInserter`/`ResetInserter`, `Memory` ports, `MultiReg` (two flops), `PulseSynchronizer`, `Gearbox` (80-bit storage, write pointer reset to its middle), `chooser`;
  LiteX `stream.Endpoint`, `PipelinedActor`, `SyncFIFO`/`AsyncFIFO`, CSR storage/status, event manager, Wishbone;
  LiteDRAM native port and DMA back-ends (as environment).
* Not modelled at all: vendor primitives (PLL, MMCM, IODELAY, ISERDES, OSERDES, BUFG...), metastability and real clock-domain timing, pads and differential signalling, the code under `test/` (reference functions excepted), Python-level elaboration errors.

The table of modelled code and unmodelled code is in section 4.

## 3. Properties, models and proof methods

"all n" means induction over the clock number; "finite" means a finite domain (for example all ten-bit words) decided completely by computation inside the kernel and used as a lemma of a theorem without bounds.
"R" marks a statement that is false of the code: the file has a `_refuted` theorem with a reachable counterexample and a `_partial` theorem for the strongest true part found.
The `note` fields of `MANIFEST.json` say, per property, what is refuted and what is missing.

| Id | Files | Proof |
|----|-------|-------|
| C01-C05 | Tmds* | stage-by-stage pipeline lemma; invariant "disparity even in -8..8"; finite check over 256 bytes x 9 disparities lifted by the invariant; simulation of the DVI 1.0 algorithm written on bit lists |
| C06-C08 | CharSync* | invariant on the match counter; window lemma; finite checks on straddling pairs of legal words; lock from any state |
| C09, C10 R | Wer* | legal words are never flagged (finite), exact count by induction; the boundary word of a period is not counted |
| C11-C13 | ChanSync* | delay abstraction 1..8 per elastic buffer, phase argument, latency bounds |
| C14, C15, C16 R, C17, C63 | Terc4* | invariants on the period tracker; the statement is about the DE output after the mode multiplexer |
| C18-C20 | AnalysisProps | counting specification, induction, any counter width |
| C21 R, C22 R, C23, C67 R | Frame*, YccPath* | list-of-groups specification; C21 false for pack factor 1; C22 false when F-1 pixels are left over |
| C24, C25 R, C26, C27 | InDma* | trace invariants with arbitrary memory and stream handshakes; C25 false for a frame size below one word |
| C28, C29, C30 R | Edid* | sampled-bus abstraction, transaction induction; C30 false when hpd_en drops, and for one-sample SCL low phases |
| C31-C33, C66 R | Timing* | closed form of the counters; stalls by counting accepted clocks |
| C34, C35, C36 R, C37 R, C38 | VideoOut*, TearProps | trace invariant over consumed words; with a moving base every outstanding word carries the clock of its read (C37_tear_bounded_partial); ExactProps gives raw mode under every DMA schedule (C36_every_schedule_partial) |
| C39 R, C64 R, C65, C67 R | YccPath* | exact latency of every path; composition of the converter theorems; ExactProps says in which frame each pixel is counted (C67_every_pixel_partial) |
| C40 R | Pipe*, CscProps | queue refinement generic in the datapath and latency, every handshake schedule |
| C41-C44 | Csc* | linear arithmetic over all inputs and finite sweeps over components |
| C45 R, C46 | Chroma*, CscProps, DownProps | parity invariant; FIFO refinement and progress |
| C47 R, C48 R, C49, C50 R, C51 R, C69 R | Float* | exact integer specification of half floats; finite checks over exponents, arithmetic over mantissas; FloatExactProps gives the multiplier under changing operands (C50_changing_operands_partial) |
| C52, C53 R, C54 R | Pattern* | closed forms by induction |
| C55 R, C56, C57 | Terminal* | closed form of the counters; pipeline invariant; memory refinement |
| C58-C60, C68 | Serial* | closed forms by induction; bit-list specification of the gears |
| C61 | Delay* | list lemma, all latencies |
| C62 | CharSyncProps | composition of encoder, character synchroniser and decoder |
| C70 | Hdmi* | composition of C62 and C11 for three skewed channels, receiver top level |
| C71, C72 | Link* | composition of the video output core, PHY, C70, C19/C20 and the packer; whole frames |
| C73, C74, C75 R, C76 | Cdc* | two clocks with arbitrary interleaved edges; protocol phases, the circuit is shown to follow them by a finite check over all abstract states and inputs; histories by induction over instants |
| C77, C78 | Fifo* | asynchronous FIFO with Gray pointers, any depth; invariant relating every pointer copy to the counts of words written and read; races resolved bit by bit |
| C79 | Capture* | composition of C72 and C77 with the DMA (C24) over both clocks: position of the capture in the word stream, then memory contents |
| C80, C81 R, C82 | Genlock* | frame-relative invariant of the reader (one pass per vsync edge), conservation of words through the read queue, FIFO offer lemmas of C78 |
| C83 R, C84 R | Phy* | invariant: scan position = clocks minus underflows |
| C85 | Startup* | the output core with its reader is a stream with underflows (C84); the link and capture lemmas of C70-C79 generalised to a stream that is a raster from some clock on |
| C86 | Gear* | invariant: chunk n of the input is in the storage until it is overwritten; position arithmetic modulo the storage; counting the edges of two locked clocks |
| C87, C88 | HdmiRx* | both variants share the front end (induction); the last stages agree one clock apart; words and bytes in the elastic buffers agree (invariant); an eventually periodic run |
| C89 | YccLink* | the frame and word lemmas of C72/C79 for any packer input whose pixels come up to 28 clocks after the frame boundaries; C65 on every received line |
| C90, C91 R | OutTop*, OutRestart* | the parameter FIFO of C78 composed with the core: invariant that a set is always on offer because at most one is taken per frame; then the core is that of C85; restart: invariant that nothing is marked and the syncs are low while no set is on offer; the words shown are those on their way, then those from the reader's position on (C91_restart_exact_partial) |
| C92 | EdidProps | C28 with the memory as configured, finite check of the constant |
| C93 | Raw* | the invariant of C37 with a word taken in every clock that has one |
| C94, C95 | CaptureRate*, CaptureLive* | service bound: while words wait, each sys clock belongs to a word taken, a pause or the draining; hence the backlog is bounded by the burst; liveness by counting sys clocks from that bound |
| C96 | FrameLive*, OutLive*, YccOut* | C90 (and C89) with the receiver's side supplied by C95 |
| C97 | SerialLink*, SerialTop* | C60 and C86 make the received words the sent bit stream, which is the link that C96 assumes |
| C98, C99 R | Fair* | after each filled slot another loaded one of the first two is chosen; bounded waiting by the liveness lemma of C95; starvation of a third slot by a periodic run, shown by induction over periods |
| C100 | Irq* | status bits only change by a software write or the end of a capture (induction over instants); C98 |
| C101, C102 | Tap* | the bus synchroniser's handshake in phases, a ghost round number carried by simulation; liveness by counting edges per phase (128-clock timeout); commands by C73 for the three pulses of a line, tap by induction over delay clocks |
| C103 R, C104, C105 | Status* | two registers with bitwise races: a settled value is read, an invariant closed under races is kept; phase bits never change into each other directly; underflow count by C73 and induction over pixel clocks |
| C106, C107 R, C108 | Clock* | rational arithmetic on the configuration; reset synchronisers settle within two edges after the lock whatever the races, then the gearbox is that of C86 started at some of its four phases |
| C109, C110 | Ref* | exhaustive over the 2^16 half patterns (the whole domain), with C47 and C48; packing bit by bit for every width |
| C111 R | Resample* | the chain's halves are the stages of C45 and C46 (same runs); pixel position to clock by counting; without `first` the parity is that of the clock |
| C112 | YccLoop* | C65 and C39 give the shown pixel exactly; C44 and Lipschitz bounds of the inverse formula |
| C113 | OutSwapProps | the core of C37's tear theorem driven by the FIFO of C78; age of a set on offer from the FIFO's depth |
| C114, C115 | CscW* | generic-width version of C41-C44: bounds on products and floors, coefficients from binary64 arithmetic (SpecFloat) with an error bound for every coefficient width |
| C116 | Join*, Lock* | C108 with the release instant common to the channels, and its Spartan-6 counterpart, give the link from the transmitter's word N on; the scan repeats after whole frames, so the capture lemmas of C96 apply with a shifted origin |
| C117 | SyncStatus* | the values behind the two-flop copies do not change after lock (link lemmas of C116), so the copies settle; for arbitrary input the lock bit is sticky and C06 applies at the clock that set it |
| C118 | RawTop* | the invariant of OutTopProofs.v with the raw core; the gap from counting words issued per pass; the ideal memory gives the state of the reader in closed form |
| C119 | Sizing* | an abstract queue: between two clocks with a full queue fewer than a frame's clocks pass, because takes are bounded by the pixels of a frame and missed issues by refusals, one idle clock and the full clock itself |
| C120 | YccTop* | count of words since the last rise of `de` fixes the upsampler's parity whatever the gaps; the scan point of a clock is the count of valid clocks (C90); the colours at a scan point define the word stream to which the link and capture lemmas of C116 apply |
| C121 | SlotRegProps | a busy writer's slot is loaded (invariant of the DMA), so only software changes the registers of an unloaded slot; fields by bit extensionality; continuous operation from C98 |
| C122, C123 R, C124 R | S6Ctl*, S6PhaseProps | each line of the joint circuit is the circuit of C74 (same run); counts by the protocol phases; resets by C73; accumulator as in C59 over instants, flags of a bitwise mixture of neighbouring values |
| C125 | StreamLinkProofs, StreamLinkProps | the words of C113 numbered by the scan through the link lemma of C116 (which takes any words), frames as windows of the packer for C121 |
| C126 | SizeMoveProofs, SizeMoveProps | the queue of C119 for a core whose parameter set may change in every clock (the mode and the length stay); then C125 through the lock of C116 |
| C127 | ModeProofs, ModeProps, ModeRunProps | a frame automaton (place in the frame, words left over from the previous picture) that follows any sequence of whole sets; the refutations are periodic runs checked over one period (FairProps.periodic) |
| C128 | S7Ctl* | each line is a line of TapModel.v in a time twice as fine, in which writes that win their race come half an instant earlier; C102's exact tap formula then applies |
| C129 | ModeLink* | the settled stream of C127 from the first frame start after n2 is the fixed stream of C71/C98 behind an arbitrary past: characters and channels realign in its first blanking interval |
| C130 | TermFiles, TermTop* | refinement of each side to its own clock (tt_bus, tt_video), then C56 with the bytes the read port delivers and C57 for their values |
| C131 | HdmiSrc* | words of every slot legal; C11 for the skew; an invariant of the period tracker per kind of slot; C18, C21 for sync and capture |
| C132 | HdmiSrcSpec, HdmiSrcProofs, HdmiIslandProps | invariant of the period tracker with the preambles, case analysis of each pair of slots |
| C133 R | EdidPinSpec, EdidPinProofs, EdidPinProps | lists of levels for each clock, every 64th of which is the list of samples of C28; the slave holds SDA through every high phase |
| C134 | EdidPadsModel, EdidPadsProps | the slave on the board is the one of EdidModel.v, for every variant of the pads |
| C135 | GenlockRangeProps | refuted: with delay_base (in words) at or above the length in words a pass takes 2^aw - delay + len words, all but the last len of them outside the buffer; a length of 0 is never finished. Exact words and end of the pass for every delay and length |
| C136 | FrameSizeProps | refuted: the DMA does not look at sof inside a capture, so a frame size above the incoming frame makes the slot hold the next frame's first words too. For every size: the slot is filled and holds exactly the words from a start of frame on; one frame if the size is not above it |
| C137 | HdmiSlotProps | composition of C131, the packer (frames of a whole number of words) and C95 |
| C138 | HdmiSlotYccProps | C137 with the converter of C65; the packer lemma and C95 restated for pixels of any width |
| C139 | PictureOrderProps | the frame of a capture is the number of words taken from the FIFO before its start, over m; a capture takes m words, and the count never falls |
| C140 | PictureSkipProps | refuted by a run with one-word frames: the chooser looks at the slots while the filled one still counts as loaded, so for one clock the DMA has no slot and discards what comes. Otherwise: next frame or the one after it, from the first multiple of m in the count of words taken |
| C141 | PictureOrderProps, PictureFlowProps | backlog of the FIFO when the last word is stored (C94), then at most E clocks of draining |
| C142 | PictureFlowProps | induction over captures with C140; C141 shows that the next frame has not begun when the slot is marked. Example: a run of period 512 in which two slots are loaded again for ever |
| C143 | HdmiVideoProps | C131 gives the stream of `streaming`; the last word of a frame leaves the packer one clock after its last pixel; C141, C142. Example: the source of C137 with the driver of C144 |
| C144 | DriverProps | the driver is a specification of software, not code of the repository; invariant: unless both slots are loaded the DMA is idle; then C142 |
| C145 | HdmiVideoYccProps | C143 with the pixel stream of C138: pixels reach the packer eleven clocks later than vsync, the quiet clocks before vsync keep them in their frame |
| C146 | RawGenlock* | one pass per vsync edge (C80) and conservation of words; the reader's queue never holds more than its depth and runs out in blanking because raw mode takes words there too; exact clock by induction over the frame |
| C147 | EagerProps | the software is any input sequence that meets `eager`; invariant: the DMA is idle or two slots are loaded; then C142 |
| C148 | EveryPictureProps | C143 and C145 with the software of C147, both modes; the first picture stored is bounded because an idle DMA with a slot takes the first frame whose words it has not taken yet (C140) |
| C149 | PromptProps | while a slot is filled, which takes m sys clocks at least, no other slot is emptied (C140), so each of them has been loaded by then; C142, C143, C145. Example: a poller of three slots, one every ten clocks, is such software, and stores every picture of the source of C137 from picture 2 on |
| C150 | DeepProps | every capture takes m sys clocks at least, so in any D sys clocks at most ns - 1 slots become empty (counting ends of captures over distinct slots); if none were loaded, some slot would have been empty for longer than D; C142, C143, C145. Example: software that loads three slots at once and then polls one of them every 29 clocks, almost two pictures of 45 words per round, stores every picture of the source of C137 from picture 2 on |
| C151 | PermitProps | invariant: captures begun + loaded slots <= loads + (1 if a capture is under way and the slot in hand is loaded); words written = m per capture begun, minus what is left of the one under way. No hypothesis on software |
| C152 R | WithdrawProps | a loaded slot in hand stays in hand until it is unloaded or its capture ends; the address reached is an invariant of the capture alone. Refuted if software unloads the slot in use while another is loaded: the other one is marked as filled |
| C153 | BypassProps | invariant: captures ended + loaded slots below d <= loaded slots below d at first + loads below d since + (1 if the slot in hand is not above d). It is the exact price of the priority that refutes C99 |
| C154 | ServedProps | the count of C153 over the two clocks, and: while a slot is loaded captures keep ending (lemmas of C98). Example: the run of C99, in which software stops loading slots 0 and 1 at some instant |

## 4. Modelled / not modelled

| Source file | Modelled | Not modelled, or simplified |
|---|---|---|
| input/charsync.py | all of `CharSync`; the register copies of `synced` and the control position (StatusModel.v, SyncStatusProps.v) | |
| input/chansync.py | `_SyncBuffer`, `ChanSync` | the register copy of `chan_synced` is the general one of StatusModel.v |
| input/decoding.py | `Decoding`, `DecodeTERC4` | CSRs; the two unused counters; the TERC4 nibble outputs are modelled as the code has them, the packet layer does not exist in the code |
| input/wer.py | all of `WER`, with the transfer to the system clock (CdcModel.v) | |
| input/analysis.py | `SyncPolarity`, `ResolutionDetection`, `FrameExtraction` (rgb and ycbcr422 paths, packer, sof, overflow; the overflow flag across the two clocks in CdcModel.v, the FIFO in FifoModel.v); the register copies of the resolution (StatusModel.v) | |
| input/dma.py | `_Slot`, `_SlotArray`, `DMA` | LiteDRAM's DMA writer is an arbitrary `ready` input; LiteX's event manager (`EventSourceLevel`, `EventManager`) is modelled from knowledge of the library, without its bus interface |
| input/edid.py | `EDID` completely, memory included, with all variants of its pads (EdidPadsModel.v) | the theorems hold for any memory contents, C92 is about `_default_edid`; the I/O tristate is the wired-and of the two sides; MultiReg is two registers |
| input/datacapture.py | phase accumulators, phase detector, 5:10 gear, polarity; Spartan-6 delay commands, resets and busy bits of both delay lines, phase reset and phase register across the two clocks (S6CtlModel.v; CdcModel.v has one delay line); the 8:10 `Gearbox` of Migen with its two clocks (GearModel.v); Series 7 delay commands, tap counter and its `BusSynchronizer` (TapModel.v; S7CtlModel.v has both lines behind one register, each toggle with its own race); phase error register (StatusModel.v) | IDELAY/ISERDES primitives (the deserialiser is taken to deliver successive groups of eight bits, oldest first; the delay line's tap is a five-bit counter with load, up and down) |
| input/clocking.py | DRP ready flags; frequencies of the PLL and MMCM configurations, reset synchronisers and the start after lock on both families (ClockModel.v) | PLL/MMCM/BUFG instances are ideal dividers without jitter; the lock signal is an arbitrary input |
| input/__init__.py | channel wiring, `TimingDelayChannel`, top level with `hdmi=False` (HdmiModel.v) and `hdmi=True` (HdmiRxModel.v), input of the frame extraction | |
| output/hdmi/encoder.py | `Encoder` completely | |
| output/hdmi/s6.py | command shifter, DRP flag, 10:5 gear, channel mapping | PLL (its frequencies are in ClockModel.v), DCM, BUFPLL, OSERDES2 (its bit order is an assumption of C60) |
| output/hdmi/s7.py | DRP flag, serialiser bit order, channel mapping | MMCM (its frequencies are in ClockModel.v), OSERDESE2 |
| output/core.py | `Initiator` (FifoModel.v) and its composition with the core over both clocks (OutTopModel.v), `DMAReader`, `TimingGenerator`, `VideoOutCore` and the underflow counter (its registers and clock crossings in StatusModel.v) and the genlock variant of all of them (GenlockModel.v) | LiteDRAM's DMA reader is an order-preserving queue with arbitrary latency |
| output/driver.py | connection to the HDMI PHY, `VGAPHY` (PhyModel.v) | |
| output/__init__.py | raw (RawModel.v), rgb and ycbcr422 data paths, `TimingDelay` | raw mode: RawTopModel.v has the registers and the parameter FIFO, without genlock; RawGenlockModel.v has raw mode with genlock, without the registers (`VideoOut` itself never passes a genlock stream to its core); ycbcr422 mode: YccTopModel.v joins the core with its registers to the converters |
| output/pattern.py | the three patterns | |
| csc/*.py | all converters, rgb16f included; RGB2YCbCr and YCbCr2RGB for every choice of their three widths (CscWModel.v), elsewhere coefficient width 8 and equal pixel widths (the defaults) | |
| float_arithmetic/*.py | `LeadOne`, adder and multiplier datapaths | see the notes below |
| terminal/core.py | video side and Wishbone side, both on one RAM over two clocks, `read_ram_init_file` and the default files (TermTopModel.v, TermFiles.v) | `get_path` (search of the file) |
| test directories, setup.py | the reference functions `int2float`, `float2int`, `binint2float` and the packing of csc/test/common.py and float_arithmetic/test/common.py (RefModel.v); the chain of ycbcr_resampling_tb.py (ResampleModel.v) | test benches, image files, the colour references in floating point, `float2binint` (numpy); setup.py |

Notes on choices that matter:

* Clock domains.  A circuit in one clock domain is modelled in its own clock.  CdcModel.v models the crossings of commands and status: time is a sequence of instants at each of which either clock, both or none has an edge, so every ratio and phase is covered; a one-bit signal sampled while it changes gives the old or the new value, which are the two orders of the edges.  FifoModel.v does the same for the FIFO pointers, where every bit sampled at a common edge may be old or new independently.  Metastability beyond that is not modelled.  Elsewhere a crossing is an arbitrary input.
* `BusSynchronizer` (TapModel.v) is the one of current Migen: ping and pong toggle synchronisers, a timeout of 128 source clocks, and one more register on the ping so that the sampled buffer is stable.
* Gears (C60).  Time is counted in half pixel clocks; a register in the fast domain that reads the level of the pixel clock at their common edge gets the value before the edge.
* `floatmult.py` shifts by a negative amount in one branch.  Migen's simulator rejects that; the model uses the unsigned 7-bit amount of the generated Verilog.
* `floatadd.py` writes `(-1)*diff`; the model uses the exact negation because the operand has six signed bits and the product is wide enough.
* `RGB2RGB16f` and `RGB16f2RGB` call `PipelinedActor.__init__` three times; the three valid pipelines drive the same signals with the same values, one is modelled.
* The models of litex/migen parts (PipelinedActor, SyncFIFO, AsyncFIFO, FSM, MultiReg, PulseSynchronizer, BusSynchronizer, AsyncResetSynchronizer, Gearbox with its combined reset, Memory ports) are written from knowledge of the libraries; their sources are not available here, so the models were not compared with them line by line.

## 5. Wrong programs

`seeded/LOG.jsonl` lists realistic faults that were put into a copy of the model, the claim each one breaks and the theorems that stopped proving.  For each attempt every proof that no longer checks was removed together with everything that depends on it, so the list of failed theorems is complete.
