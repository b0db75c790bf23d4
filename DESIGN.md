# Formal model of cocotb-bus in Rocq (Coq 8.16.1)

Source modelled: `/repo/src/cocotb_bus/*` and `/repo/bin/combine_results.py`.
All line numbers in model comments refer to the pinned commit in `/repo`.

## 1. Layout

Each part of the code has up to four files in `rocq/theories/`:

* `XModel.v`  – Gallina transcription of the Python, function by function, with file/line citations;
* `XSpec.v`   – the small independent specification used by the theorem statements;
* `XProof.v`  – lemmas;
* `XProp.v`   – only the property theorems (each closed by `exact`), their non-vacuity `Example`s and
  `Print Assumptions`.

`Base.v` holds exceptions-as-values (`res`), four-valued logic and logic vectors; `Async.v` holds the model
of a cocotb coroutine on a synchronous bus.

## 2. The coroutine model (`Async.v`)

cocotb itself is not in `/repo`; what we assume of it is written down as an executable model:

* A simulation is a list of *clock cycles*. Cycle k is the time from rising edge k to rising edge k+1. Each
  signal has one settled value per cycle (all signals are synchronous to the clock; intra-cycle glitches are not modelled).
* The DUT-driven inputs are an arbitrary list of per-cycle values, quantified universally in the theorems. Any reactive
  DUT produces some such list, so a theorem for all lists covers all (synchronous) DUTs.
* `await RisingEdge(clock)` closes the current cycle: the pair (inputs, driven outputs) of that cycle is appended to the
  history. When the stimulus is used up the coroutine is *suspended* (`Susp`): this is how "at every time" statements
  are obtained – a run over a shorter stimulus is a prefix of the run over a longer one.
* A write takes effect in the current cycle (last write wins). Right after an edge (phase `PActive`) a read returns the
  settled value of the previous cycle; in the ReadOnly phase and later in the same cycle it returns the settled value of
  the current cycle.
* A write in the ReadOnly phase raises `RuntimeError`; awaiting ReadOnly in the ReadOnly phase raises `RuntimeError`
  (cocotb 2.x; the code's own comments at avalon.py:422 and :539 state the first rule).
* `await NextTimeStep()`/`FallingEdge` move to a later time step of the same cycle (`PMid`).
* Loops use explicit fuel; running out of fuel is the separate outcome `Fuel`, never a normal-looking value. Theorems
  either give a sufficient fuel or hold for every fuel.

Tasks sharing an object through events and locks (send thread, `_acquire_lock`, `wait_for_recv`) are modelled as
transition systems whose steps are "a task runs until its next await"; the schedule is an arbitrary list of steps.
The tasks of a test that share a driver object and a clock (C113) are trees of actions run by the scheduler of
`CoModel.v`: of the tasks that can run the first one in the list runs; a trigger wakes all the tasks that wait for it.
For the AXI master (`AxcModel.v`) cocotb's `Lock` serves the waiting tasks in the order of their requests, and the next
task continues in the time step of the release; this is assumed of cocotb.

The cocotb 2.x branch of `_compat.py` is the one modelled; the behaviour of `LogicArray` (leftmost = most significant,
`to_bytes` = unsigned value in ceil(n/8) bytes, `ValueError` when unresolvable or out of range) is assumed.
The 1.x branch is compared with it in `CompatModel.v` and `Compat1Model.v`.

## 3. Properties: what is modelled and how it is proved

"Refuted" means: the faithful model violates the property, a theorem `Cnn_..._refuted` says so (for all inputs of the
stated class where possible, otherwise by a witness), `Cnn_..._partial` says what does hold, and the manifest status is
"partial".

| id | model | method |
|----|-------|--------|
| C01-C03 | `CompatModel.v`: create_binary, convert_binary_to_bytes, binary_slice over lists of logic values | algebraic laws by induction on bytes and bits |
| C04-C10 | `BusModel.v`: entity = sorted member list, Bus = ordered attribute map, objects = attribute maps | induction on the signal lists; C05, C06, C08 (atomicity) and C09 (names of dict methods) refuted |
| C11-C14 | `MonitorModel.v`: `_recv`, `add_callback`, `wait_for_recv` as a task system | induction over histories |
| C15-C21, C82-C84 | `ScoreboardModel.v`: heap of expected lists, a closure per monitor | induction over histories, refinement to list equality; C21 (leftovers) refuted for a monitor added twice; C82 (monitors without a name), C83, C84 refuted |
| C22-C25, C69, C70 | `DriverModel.v`: send thread as a transition system with re-entrant callbacks | invariants over all schedules, refinement to an abstract queue; C69, C70 refuted |
| C26-C27 | `LockModel.v`: tasks calling `_acquire_lock`/`_release_lock` | refuted by schedules, proved for polite schedules |
| C28-C31 | `DrvUtilModel.v`: BusDriver._driver_send, BitDriver, valid generator, socket attachment | run characterisation by induction; C28 refuted |
| C32-C33, C71 | `AvalonSTModel.v`: driver coroutine and monitor | characterisation of the cycle trace (`HandshakeSpec.v`); C33 refuted for the default symbol order, C71 refuted |
| C34-C40, C72-C74 | `PktModel.v`: packet driver coroutine and monitor | characterisation of the cycle trace; composition of driver and monitor; C36, C37, C39, C72-C74 refuted in part |
| C41-C42, C75, C76 | `MMModel.v`: master coroutines | run characterisation, induction over sequences of accesses; C76 refuted |
| C43-C48, C77 | `AvMemModel.v`: the memory coroutine with random draws as an arbitrary stream | refinement to a memory and a list of delayed responses; C45-C48, C77 refuted |
| C49-C59 | `AxiModel.v`: parameter checks, lane/strobe/realign arithmetic, channel coroutines, AXI4-Lite | byte-level refinement against the AXI4 reference slave and memory of `AxiSpec.v`; C52 (narrow wraps) and C56 (data_latency) refuted |
| C60 | `AxsModel.v`: the two coroutines of AXI4Slave | refuted (writes in the ReadOnly phase; narrow beats resize the memory; read beats lost); data path proved |
| C61-C65 | `XgModel.v`: driver words, frames, monitor | bit-field lemmas, run characterisation, composition; as shipped everything using the driver is refuted (NameError), proved with the name bound; CRC part of C65 refuted |
| C66-C67, C78, C79 | `OpbModel.v`: read and write coroutines | run characterisation; all four refuted in part |
| C68, C80, C81 | `CombModel.v`: XML trees, merge and report | invariant of the merge by induction over the suites; C81 refuted |
| C85 | `E2EModel.v`: send queue, packet driver, packet monitor and scoreboard put together | composition of C22, C35 (with idle gaps between packets) and C15 |
| C86-C87 | `AxcModel.v`: AXI accesses of several tasks, one lock per channel | one lemma about a channel that serves jobs one after the other (over the logic of Handshake.v), induction over the jobs; responses and read bursts by induction over the calls |
| C88-C89 | `AvSysSpec.v`: the master of MMModel.v and the memory of AvMemModel.v connected by wires, cycle by cycle (no burstcount) | induction over the accesses; per access the memory's response queue is followed from the request to the data; C89 refuted by the same analysis of one read |
| C90-C91 | `AxcModel.v` with calls whose address or byte enables make one of their tasks raise (`AxfSpec.v`) | a task that raises before it uses its channel is removed from the channel's list of jobs, the later ones are called later (`serve_drop`); then C86/C87; progress by a direct induction over the jobs (`AxlProof.v`). C90 refuted: addresses and data are filtered by different conditions |
| C92 | `BitModel.v`: a BitDriver object with all its tasks and the shared generator; the calls of start and stop before or after the tasks run in a time step | induction over the sessions with the invariant that all former tasks are dead; the state of a task after k edges by induction over the generator |
| C93 | `StE2EModel.v`: send queue, plain Avalon-ST driver, monitor and scoreboard put together | composition of C22, C32 (with idle gaps between words), C02 and C15 |
| C94 | `AvMemModel.v` | refuted; induction over the cycles before the first request with an undefined operand |
| C95-C97 | `MonKillModel.v`: a monitor with its callbacks, waiting tasks and kill as one transition system | invariants over all histories; C96 (callables without a name), C97 (timeout 0) refuted |
| C98 | `AvPortModel.v`: any number of AvalonMemory coroutines that share the dictionary, cycle by cycle, in any order of turns in each cycle | induction on the cycles and on the order; a view of the memory for each port |
| C99 | the model of C43-C48 | a program logic for the run of waiting cycles at the end of the trace |
| C100 | `CombHeapModel.v`: elements as objects in a heap, the walk with its stack | order of first visits keeps the object graph acyclic; the walk decreases a lexicographic measure |
| C101 | `DriverModel.v`, action AKill | induction over the schedule after the kill |
| C102 | `StE2EModel.v`, and `E2EModel.v` for packets, cut after any number of cycles, the bus held as it was | refuted; exact reports from the invariants of C93 and C85 (`PktKillProof.v`) |
| C103 | `SigModel.v`: a signal with several values per time step | invariant of the loop: no wanted value settled so far |
| C104 | `BusNameModel.v`: the Bus instance as a Python object, with its own attributes and methods | invariant between the instance dictionary and the bus of `BusModel.v`; refuted for the names of the methods |
| C105–C107 | `CombRunModel.v`: a tree of files, os.walk, parsing and writing of files around the merge of `CombHeapModel.v` | induction over the tree; the written tree is the one of `CombModel.v`; refuted for missing directories and for an output that is an input |
| C108 | `BenchModel.v`: channels of input monitor, reference model, expected list and output monitor around the Scoreboard of `ScoreboardModel.v`, as in examples/dff and examples/endian_swapper | induction over the interleaving with an invariant per channel, then the matching lemmas of C18/C84 |
| C109, C110 | `ScoreboardModel.v` with arbitrary type(), == and str() | counterexamples; case analysis of one reception, induction over the history |
| C111 | `AxiModel.v` and `AxsModel.v`, the signals of one being those of the other (`AxSysSpec.v`) | the slave drives constants; the master's waiting lemmas |
| C112 | the monitor's constructor with the process it starts (`PktRejModel.v`) | the runs with and without maxChannel are equal; induction |
| C113 | several tasks on one clock (`CoModel.v`), the master as a tree of actions with its lock (`CoAvModel.v`) | simulation of the one task that holds the lock; induction on the calls; the refutations by running the machine on symbolic writes |
| C114-C115 | `AvSigModel.v`: constructors and signal accesses on buses that lack optional signals | AttributeError is traced through every primitive; with the signals present the models are equal pointwise |
| C116 | `XgE2EModel.v`: DriverModel, XgModel and ScoreboardModel put together | composition of C22, C64 and C15; as shipped refuted (NameError; and the XGMII monitor has no `name`, C82) |
| C117-C118 | `StGenModel.v`: the Avalon-ST driver, with a set_valid_generator call possible in every cycle | C117: the handshake calculus of C32 with an invariant on the generator state, and simulation with `AvalonSTModel.v` without calls; C118 refuted for calls during a gap |
| C119 | `ScbCmpModel.v`: a scoreboard with an arbitrary compare | induction over the history; simulation with `ScoreboardModel.v` for Scoreboard's own compare |
| C120 | `AvWidModel.v`: the memory with a readdata of another width | refuted, by an invariant over all executions; simulation with `AvMemModel.v` for equal widths and without reads |
| C121 | `PkGenModel.v`: the packet driver with calls of set_valid_generator in any cycles | simulation by the driver of `PktModel.v` with a generator built from the gaps of the execution |
| C122 | `MonitorModel.v`: wait_for_recv called in a loop (`WaitLoopSpec.v`) | refuted by witnesses for all transactions; invariant over all schedules |
| C123 | `SampleModel.v`: Bus.sample over objects with and without set_binstr/get_binstr | induction on the bus; refuted for fixed-width attributes |
| C124 | `ScbExnModel.v`: scoreboard whose ==, !=, str, messages and callables may raise | invariant over histories; refuted for the last expected transaction and for callables |
| C125 | `GenExnModel.v`: valid and bit generators that raise or are no iterators | simulation with C32's driver, invariant over sends; refuted for iterables that are no iterators |
| C126 | `CrcModel.v`: zlib.crc32 by its definition | linearity over exclusive or, one-to-one on 32 bits, order of the polynomial by computation of powers; lifted to the monitor by C65 |
| C127 | `AvMemModel.v` from any dictionary and latencies | induction over the cycles, the responses taken from the queue against the scheduled values; refuted for values that do not fit and empty latency ranges |
| C128 | the requests of `AxcModel.v`, decoded | C86/C87 for the requests, arithmetic of pages for each burst type; refuted for WRAP |
| C129 | `MMModel.v`, `OpbModel.v`, `AxiModel.v` with arbitrary integers | the access equals the access of the wrapped operands; refuted |
| C130 | `sock_poll`, `DriverModel.v`, `PktModel.v` together | C31, C22 and C85 composed |
| C131 | `read_beat`, `write_response` | runs from the state an undefined response leaves; counterexamples |
| C132 | `RstModel.v`: `AvalonST._monitor_recv` with reset signals | induction on the cycles; counterexamples |
| C133 | the XGMII monitor on a frame with one control bit inverted | the words cut at the first control lane; counterexamples |
| C134 | the packetized Avalon-ST driver and monitor with the option readyLatency | transfers by the Avalon definition of ready latency over the traces of C34; counting ready cycles |
| C135 | a call given up at any await (with_timeout, Task.kill): the state it leaves, and the calls after it | invariants of the coroutines up to suspension; the AXI read theorem with a shifted memory |
| C136 | the exact valid waveform of a list of sends of both Avalon-ST drivers | exact equations of the coroutines, induction over words and packets |
| C137 | the exact AWVALID, WVALID and ARVALID waveforms of the AXI4 master and the cycle of its response | exact equations of the coroutines, induction over the beats |
| C138 | any program of AXI accesses made one after the other, a slave given by what it is sent and what it answers (`AxPrSpec.v`) | refinement to a byte array by induction over the program, from C49, C51, C53 and C57 |
| C139 | BitDriver's wave (C29) as the ready input of the Avalon-ST drivers (`BpSpec.v`) | C29 and C136 composed; the position of the n-th on cycle by induction over the rounds |
| C140 | the AXI4 write (C56, C137) with slaves that serve its channels in any order (`AxLvSpec.v`) | C137 cycle by cycle; the steps left fall by one in any data_latency + D cycles, by induction on their number |
| C141 | the Avalon-ST drivers of C136 with a receiver that answers within D cycles of valid (`RspSpec.v`) | C136, induction over the words |
| C142 | the Avalon-MM master of C41, C42 with a slave that answers within D cycles (`MMRspSpec.v`) | C41 and C42, induction over the accesses |
| C143 | the AXI4 reads of C58, C137 with a slave that answers within D cycles (`AxRdSpec.v`) | C58, C137 and a count of the beats in windows of D cycles |
| C144 | the OPB accesses of C66, C67 with a slave that stops suppressing the timeout | induction over the suppressed cycles, then over the timeout count |
| C145 | create_binary of both branches of _compat.py on every argument | bit lengths and values of bit strings |
| C146 | the runs of several tasks of C86 and C87 on a slave of bounded delay | time bounds through the lock queues, then induction on the answers |
| C147 | the words sent for a sequence of packets (C63, C64) as one stream of lanes | a scanner over the lanes counts the characters between packets; induction on the packets |
| C148 | traffic of any transmitter as a stream of lanes: idle, start, frame, terminate | a cursor in the stream, one lane at a time; the words the monitor skips and collects by induction on the words (C65) |
| C149 | the traffic of C148, cut after any number of words | the cursor of C148; a frame without its terminate is open |
| C150 | the traffic of C148 from any word on | the cursor of C148, placed in the middle of the stream |
| C151 | packet traffic without faults, cut in two at any cycle | splitting the observer's parse; C36 for the second half; induction up to the next word transferred |
| C152 | the traffic of C151, a reset, and new traffic | the invariant of C36 at the reset; induction up to the next word transferred; the locals the code leaves behind are compared with those of a new monitor |
| C153 | the loop of the packet monitor with the attribute channel | the attribute is the channel a reporting monitor reports; C36 for that monitor |
| C154 | the error signal in the packet driver and monitor | the words of C34; runs that differ in the error signal only are equal; induction |
| C155 | the argument report_channel and the class AvalonSTPktsWithChannel | both monitors step through the same locals; induction |

`BusGenProp.v`, `StRefProp.v`, `DrvRefProp.v`, `LockRefProp.v`, `ScbRefProp.v`, `PktRefProp.v`, `AxuRefProp.v`, `AxRefProp.v`, `BusRefProp.v`, `CoRefProp.v`, `CoRdProp.v` and `MemRefProp.v` say for which
entities, buses, words, packets, options, bursts and histories C05, C06, C08, C09, C21, C26, C33, C45, C46, C48,
C69, C73, C109 and C131 fail (all of a class, not one witness).

No property is "not applicable"; what is not expressed is listed in section 4.

## 4. Trusted base

* The Coq 8.16.1 kernel (with `vm_compute` for closed witnesses).
* What `Print Assumptions` lists for each property theorem: see section 5.
* The reading of the Python code (citations in the models) and the cocotb assumptions of section 2.

### Modelled

| file | modelled | not modelled |
|---|---|---|
| `_compat.py` | 2.x branch: all three functions; 1.x branch: all three functions, `binary_slice` of signal values | the version test itself |
| `bus.py` | all of class Bus (`__init__`, drive, capture, sample, case folding, array_idx, `_add_signal`) | non-ASCII case folding |
| `drivers/__init__.py` | Driver (append, clear, kill, send, send thread, lock), BusDriver (`_driver_send`, `_wait_for_signal`, `_wait_for_nsignal`), BitDriver, ValidatedBusDriver, polled_socket_attachment | logging, `__str__`, socket creation |
| `drivers/avalon.py` | AvalonMaster, AvalonMemory, AvalonST, AvalonSTPkts | logging; AvalonMM's empty abstract class |
| `drivers/amba.py` | AXI4Master (one task and several tasks), AXI4LiteMaster, AXI4Slave | logging; the 1.x/2.x Lock objects of the slave (never used) |
| `drivers/opb.py` | OPBMaster | errAck, retry, seqAddr (never used by the code) |
| `drivers/xgmii.py`, `monitors/xgmii.py` | all | zlib.crc32 is an arbitrary function (C61–C65, C116) or CRC-32 by its definition (C126), not the C code of zlib; scapy objects, hexdump |
| `monitors/__init__.py` | Monitor (with kill), BusMonitor.in_reset | a callback that kills its own monitor |
| `monitors/avalon.py` | AvalonST, AvalonSTPkts, AvalonSTPktsWithChannel | logging; the DeprecationWarning |
| `scoreboard.py` | Scoreboard (add_interface, compare, check_received_transaction, result) | log and hexdiff text |
| `bin/combine_results.py` | main: merging (copying elements in `CombModel.v`, sharing and mutating them in `CombHeapModel.v`), report, exit code; find_all, os.walk, the files read and written (`CombRunModel.v`) | argument parsing, XML syntax, `..` and links in paths, --verbose |

Not modelled anywhere: sub-cycle timing, real time (`Timer` is a nondeterministic step), Python object identity beyond
what the statements mention, simulators, `tests/`, `examples/`, `docs/`, `setup.py`, `noxfile.py`.

## 5. Assumptions printed

Every property theorem is followed by `Print Assumptions`; every one prints "Closed under the global context": no axiom,
of the standard library or otherwise, is used by any of them.

The standard library's own opaque module `Coq.ssr.ssrunder` (loaded by ZArith, Lia and Permutation, used by no theorem here)
declares `Under_rel`, `Over_rel`, `Under_rel_from_rel`, `Under_relE`, `over_rel`, `over_rel_done`, `under_rel_done` as fields
of a sealed module; tools that list the axioms of all loaded libraries name them.
