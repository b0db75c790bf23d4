{"id": "C01", "title": "Byte packing round trip", "statement": "Packing a byte string into a bus word of at least 8*len bits and reading the word back as bytes returns the bytes, in both byte orders: with big_endian the bytes come first and the zero padding last, with little endian the padding bytes come after the payload in byte order (i.e. at the most significant end).", "quantifier": "every byte string, every bus width that is a multiple of 8 and large enough, both byte orders", "why_tests_cant": "the set of byte strings and widths is unbounded; tests sample a few widths (8, 32)", "anchors": ["src/cocotb_bus/_compat.py:create_binary", "src/cocotb_bus/_compat.py:convert_binary_to_bytes"]}
{"id": "C02", "title": "Unresolvable words never decode", "statement": "Converting a word that contains an X or Z bit to bytes raises ValueError; a word of only 0/1 bits always converts, to exactly ceil(width/8) bytes whose integer value is the word's value.", "quantifier": "every logic vector of every width", "why_tests_cant": "all vectors over {0,1,X,Z} of all widths", "anchors": ["src/cocotb_bus/_compat.py:convert_binary_to_bytes"]}
{"id": "C03", "title": "Slicing extracts the bit field", "statement": "binary_slice(value, start, end) returns the bits from position start to end (left to right, inclusive) in order, and for a resolvable value its integer is (value >> (len-1-end)) mod 2^(end-start+1).", "quantifier": "every vector and every in-range start <= end", "why_tests_cant": "all widths and positions", "anchors": ["src/cocotb_bus/_compat.py:binary_slice"]}
{"id": "C04", "title": "Bus attribute resolution", "statement": "A constructed Bus has, for each requested required signal, the attribute bound to the entity member named <name><separator><signal> (just <signal> for a nameless bus), matched case-insensitively by default; optional signals are bound exactly when a member of that name (ignoring case) exists; no other attribute is added to the driven/captured set.", "quantifier": "every entity, bus name, separator, signal list or dict, optional list, index", "why_tests_cant": "entities and naming configurations are unbounded", "anchors": ["src/cocotb_bus/bus.py:Bus.__init__", "src/cocotb_bus/bus.py:Bus._add_signal", "src/cocotb_bus/bus.py:Bus._caseInsensGetattr", "src/cocotb_bus/bus.py:_build_sig_attr_dict"]}
{"id": "C05", "title": "A missing required signal is reported at construction", "statement": "Constructing a Bus for an entity that lacks a required signal raises an exception.", "quantifier": "every entity and every signal list", "why_tests_cant": "absence can occur in any position of any list", "anchors": ["src/cocotb_bus/bus.py:Bus._add_signal", "src/cocotb_bus/bus.py:Bus._caseInsensGetattr"]}
{"id": "C06", "title": "Optional signals never make construction fail and exact names win", "statement": "If all required signals exist, construction succeeds whatever subset of the optional signals (in whatever letter case) the entity has, and a signal whose exact name exists is bound to that very member.", "quantifier": "every entity, optional list and case setting", "why_tests_cant": "all subsets and letter cases", "anchors": ["src/cocotb_bus/bus.py:Bus.__init__", "src/cocotb_bus/bus.py:Bus._caseInsensGetattr"]}
{"id": "C07", "title": "drive assigns exactly the present attributes", "statement": "bus.drive(obj) writes, for each bus signal for which obj has an attribute, the attribute's value to that signal, in bus order, and writes nothing else.", "quantifier": "every bus, every object, strict or not", "why_tests_cant": "all subsets of attributes over unbounded signal lists", "anchors": ["src/cocotb_bus/bus.py:Bus.drive"]}
{"id": "C08", "title": "strict drive/sample raises exactly when an attribute is missing, atomically", "statement": "With strict=True drive and sample raise AttributeError if and only if obj lacks an attribute for some bus signal, and in that case nothing has been driven (sampled).", "quantifier": "every bus and object", "why_tests_cant": "the missing attribute can be at any position", "anchors": ["src/cocotb_bus/bus.py:Bus.drive", "src/cocotb_bus/bus.py:Bus.sample"]}
{"id": "C09", "title": "capture is a complete snapshot", "statement": "bus.capture() returns a mapping with exactly the bus signals and their current values; attribute access returns the same value for every bus signal, raises RuntimeError for names that are not bus signals, and the capture cannot be modified through attributes.", "quantifier": "every bus and signal valuation", "why_tests_cant": "all names and valuations", "anchors": ["src/cocotb_bus/bus.py:Bus.capture"]}
{"id": "C10", "title": "sample copies exactly the shared attributes and inverts drive", "statement": "bus.sample(obj) sets each attribute that obj has in common with the bus to the signal's value and leaves the others alone; sampling, after the values settle, into an object with the same attributes as the one driven gives back the driven values.", "quantifier": "every bus, object and valuation", "why_tests_cant": "all combinations of attributes", "anchors": ["src/cocotb_bus/bus.py:Bus.sample", "src/cocotb_bus/bus.py:Bus.drive"]}
{"id": "C11", "title": "Monitor delivery", "statement": "For every sequence of received transactions and callback registrations, each registered callback receives every transaction received after its registration exactly once and in order; transactions are queued (len/indexing) exactly when no callback is registered at reception; the statistics count equals the number of receptions.", "quantifier": "every interleaving of receptions and add_callback calls", "why_tests_cant": "histories are unbounded", "anchors": ["src/cocotb_bus/monitors/__init__.py:Monitor._recv", "src/cocotb_bus/monitors/__init__.py:Monitor.add_callback", "src/cocotb_bus/monitors/__init__.py:Monitor.__len__"]}
{"id": "C12", "title": "A raising callback stops delivery of that transaction", "statement": "If a callback raises, the transaction is counted, the callbacks before it saw it, and no later callback, queue, event or waiter sees it; the exception reaches the receiving coroutine.", "quantifier": "every callback list and every raising position", "why_tests_cant": "all positions and histories", "anchors": ["src/cocotb_bus/monitors/__init__.py:Monitor._recv"]}
{"id": "C13", "title": "wait_for_recv returns a transaction received during the wait, or None on timeout", "statement": "A wait_for_recv that completes without timing out returns a transaction that was received after the wait began; without timeout it never completes without a reception; with a timeout it may return None. When exactly one transaction is received before the waiter runs, that one is returned; all tasks waiting at a reception are woken by it.", "quantifier": "every interleaving of receptions, waits, timeouts and scheduler resumptions", "why_tests_cant": "schedules are unbounded", "anchors": ["src/cocotb_bus/monitors/__init__.py:Monitor.wait_for_recv", "src/cocotb_bus/monitors/__init__.py:Monitor._recv"]}
{"id": "C14", "title": "in_reset decoding", "statement": "in_reset is True exactly when reset_n is given and reads 0, or reset_n is not given, reset is given and reads non-zero; without either it is always False.", "quantifier": "every pair of optional reset signals and values", "why_tests_cant": "all values including unresolvable ones", "anchors": ["src/cocotb_bus/monitors/__init__.py:BusMonitor.in_reset"]}
{"id": "C15", "title": "In-order scoreboard verdict", "statement": "With reorder_depth 0, strict types and a list of expected outputs, after any history of expectations and receptions result passes if and only if the received sequence equals the expected sequence and no transaction came before its expectation.", "quantifier": "every interleaving of expected-output appends and receptions", "why_tests_cant": "histories are unbounded", "anchors": ["src/cocotb_bus/scoreboard.py:Scoreboard.add_interface", "src/cocotb_bus/scoreboard.py:Scoreboard.result", "src/cocotb_bus/scoreboard.py:Scoreboard.compare"]}
{"id": "C16", "title": "Error counter", "statement": "The error counter increases by exactly one for each received transaction that is unexpected, of the wrong type or different from the expected transaction it consumed, and by zero otherwise; it never decreases.", "quantifier": "every history", "why_tests_cant": "histories are unbounded", "anchors": ["src/cocotb_bus/scoreboard.py:Scoreboard.compare", "src/cocotb_bus/scoreboard.py:Scoreboard.add_interface"]}
{"id": "C17", "title": "Reorder window", "statement": "A received transaction equal (in type, value and string form) to one of the first reorder_depth+1 expected transactions consumes the earliest such one and is no error; otherwise the head of the list is consumed and one error is recorded; the other expected transactions keep their order.", "quantifier": "every expected list, depth and transaction", "why_tests_cant": "all depths and lists", "anchors": ["src/cocotb_bus/scoreboard.py:Scoreboard.add_interface"]}
{"id": "C18", "title": "Bounded reordering is accepted", "statement": "If the received sequence can be obtained by always picking one of the first reorder_depth+1 outstanding expected transactions, the scoreboard records no error and result passes; if some transaction arrives more than reorder_depth places early, an error is recorded.", "quantifier": "every expected list, every depth and every reception order", "why_tests_cant": "permutations are unbounded", "anchors": ["src/cocotb_bus/scoreboard.py:Scoreboard.add_interface", "src/cocotb_bus/scoreboard.py:Scoreboard.result"]}
{"id": "C19", "title": "fail_immediately", "statement": "With fail_immediately=True the first bad transaction raises AssertionError in the monitor that received it; with False no reception raises and result reports the failure.", "quantifier": "every history", "why_tests_cant": "the failing transaction can be anywhere in an unbounded history", "anchors": ["src/cocotb_bus/scoreboard.py:Scoreboard.compare", "src/cocotb_bus/scoreboard.py:Scoreboard.add_interface", "src/cocotb_bus/scoreboard.py:Scoreboard.result"]}
{"id": "C20", "title": "strict_type", "statement": "With strict_type=True a transaction passes only if type and value agree; with strict_type=False it passes if and only if the string representations agree.", "quantifier": "all values and types", "why_tests_cant": "all values", "anchors": ["src/cocotb_bus/scoreboard.py:Scoreboard.compare"]}
{"id": "C21", "title": "Interfaces are independent and leftovers are found", "statement": "Receptions on one interface do not change the outstanding expectations of another interface with its own list; result fails if any list-based interface ever added has outstanding expectations and ignores callable ones.", "quantifier": "every set of interfaces and every history", "why_tests_cant": "unbounded sets and histories", "anchors": ["src/cocotb_bus/scoreboard.py:Scoreboard.add_interface", "src/cocotb_bus/scoreboard.py:Scoreboard.result"]}
{"id": "C22", "title": "Append is FIFO and exactly once", "statement": "For every interleaving of append, clear, completion callbacks and scheduling, the transactions handed to the bus protocol are exactly the appended ones that were not cleared before being taken, in append order, each at most once; nothing else is sent.", "quantifier": "every interleaving of append/clear/scheduler steps, including append and clear made from completion callbacks", "why_tests_cant": "schedules are unbounded", "anchors": ["src/cocotb_bus/drivers/__init__.py:Driver.append", "src/cocotb_bus/drivers/__init__.py:Driver.clear", "src/cocotb_bus/drivers/__init__.py:Driver._send_thread"]}
{"id": "C23", "title": "No lost wake-up", "statement": "Whenever the queue is non-empty and the send thread is alive, the thread is sending or scheduled to run: it never sleeps with work queued; and if each transmission completes, everything appended is eventually sent.", "quantifier": "every interleaving", "why_tests_cant": "schedules are unbounded", "anchors": ["src/cocotb_bus/drivers/__init__.py:Driver._send_thread", "src/cocotb_bus/drivers/__init__.py:Driver.append"]}
{"id": "C24", "title": "Only the first transaction of a batch synchronises", "statement": "The send thread synchronises to the clock for the first transaction after the queue was found empty and for no other transaction of the same uninterrupted batch.", "quantifier": "every interleaving", "why_tests_cant": "schedules are unbounded", "anchors": ["src/cocotb_bus/drivers/__init__.py:Driver._send_thread"]}
{"id": "C25", "title": "Completion notification", "statement": "The event is set and the callback called with the transaction exactly once, in that order, after the transmission of that transaction has completed and before the next one starts; never for a cleared or failed transaction; an exception in a transmission ends the send thread and nothing further is sent.", "quantifier": "every interleaving and every failing transmission", "why_tests_cant": "schedules and failure points are unbounded", "anchors": ["src/cocotb_bus/drivers/__init__.py:Driver._send", "src/cocotb_bus/drivers/__init__.py:Driver._send_thread"]}
{"id": "C26", "title": "Bus access is mutually exclusive", "statement": "At most one task at a time is between acquiring and releasing the driver's bus lock.", "quantifier": "every number of tasks and every schedule", "why_tests_cant": "races depend on the schedule", "anchors": ["src/cocotb_bus/drivers/__init__.py:Driver._acquire_lock", "src/cocotb_bus/drivers/__init__.py:Driver._release_lock"]}
{"id": "C27", "title": "A failed access does not block the bus", "statement": "If a bus access ends with an exception, later accesses can still acquire the bus.", "quantifier": "every failure point and schedule", "why_tests_cant": "failure points are unbounded", "anchors": ["src/cocotb_bus/drivers/opb.py:OPBMaster.read", "src/cocotb_bus/drivers/avalon.py:AvalonMaster.read", "src/cocotb_bus/drivers/__init__.py:Driver._acquire_lock"]}
{"id": "C28", "title": "Default BusDriver send drives the transaction", "statement": "Sending a transaction object with the default BusDriver drives the object's attributes onto the bus signals.", "quantifier": "every transaction object and bus", "why_tests_cant": "all objects", "anchors": ["src/cocotb_bus/drivers/__init__.py:BusDriver._driver_send", "src/cocotb_bus/bus.py:Bus"]}
{"id": "C29", "title": "BitDriver waveform", "statement": "For a generator yielding (on, off) pairs the driven bit is 1 for exactly on cycles and then 0 for exactly off cycles, for each pair in order; when the generator ends the driver stops.", "quantifier": "every sequence of pairs and every simulation length", "why_tests_cant": "unbounded sequences", "anchors": ["src/cocotb_bus/drivers/__init__.py:BitDriver._cr_twiddler"]}
{"id": "C30", "title": "Valid throttling", "statement": "With a valid generator yielding (on, off) pairs, pairs with on=0 are skipped and words are sent in groups of on words separated by off idle cycles; when the generator is exhausted no more gaps are inserted; without a generator no gaps are inserted.", "quantifier": "every generator sequence and number of words", "why_tests_cant": "unbounded sequences", "anchors": ["src/cocotb_bus/drivers/__init__.py:ValidatedBusDriver._next_valids", "src/cocotb_bus/drivers/avalon.py:AvalonST._driver_send", "src/cocotb_bus/drivers/avalon.py:AvalonSTPkts._send_string"]}
{"id": "C31", "title": "Socket attachment forwards every chunk once, in order", "statement": "Every non-empty chunk received from the socket before the end of stream is appended to the driver once, in order; would-block is skipped, end-of-stream ends the attachment, any other error is raised and nothing is appended for it.", "quantifier": "every sequence of socket results", "why_tests_cant": "unbounded sequences", "anchors": ["src/cocotb_bus/drivers/__init__.py:polled_socket_attachment"]}
{"id": "C32", "title": "Avalon-ST word transfer under back-pressure", "statement": "Each word sent by the Avalon-ST driver is transferred (valid and ready at a clock edge) exactly once and in order for every ready pattern; while valid is high and ready low the word is held stable; a send completes in the cycle after its word is accepted.", "quantifier": "every word sequence, ready pattern and valid generator", "why_tests_cant": "unbounded patterns", "anchors": ["src/cocotb_bus/drivers/avalon.py:AvalonST._driver_send", "src/cocotb_bus/drivers/avalon.py:AvalonST._wait_ready"]}
{"id": "C33", "title": "Avalon-ST driver to monitor round trip", "statement": "What the Avalon-ST driver sends as bytes of the bus width the Avalon-ST monitor with the same configuration reports, word by word, under every ready and valid pattern.", "quantifier": "every word sequence and pattern", "why_tests_cant": "unbounded", "anchors": ["src/cocotb_bus/drivers/avalon.py:AvalonST._driver_send", "src/cocotb_bus/monitors/avalon.py:AvalonST._monitor_recv"]}
{"id": "C34", "title": "Avalon-ST packet framing", "statement": "A packet sent by the packetized driver appears as ceil(n/width) accepted words whose bytes concatenate to the packet, startofpacket on exactly the first, endofpacket on exactly the last, empty giving the number of unused symbols in the last word, whatever the ready pattern and valid gaps.", "quantifier": "every non-empty packet, bus of at least one byte with symbols of any size, ready pattern, valid generator, symbol order", "why_tests_cant": "unbounded", "anchors": ["src/cocotb_bus/drivers/avalon.py:AvalonSTPkts._send_string"]}
{"id": "C35", "title": "Avalon-ST packet end-to-end", "statement": "A monitor with the same configuration on the same bus receives exactly the packets sent, in order, each once, under every ready pattern and valid generator.", "quantifier": "every list of non-empty packets on a bus of whole byte symbols and every pattern; with an in-packet timeout n, as long as no packet is held up for n cycles, after which the monitor raises", "why_tests_cant": "unbounded", "anchors": ["src/cocotb_bus/drivers/avalon.py:AvalonSTPkts._send_string", "src/cocotb_bus/monitors/avalon.py:AvalonSTPkts._monitor_recv"]}
{"id": "C36", "title": "Avalon-ST packet monitor protocol checking", "statement": "The packet monitor raises AvalonProtocolError for a word outside a packet, a second startofpacket inside a packet, unresolvable bits in the used part of the last word, a channel change within a packet or a channel above maxChannel, and never raises for a well-formed stream; a packet is reported exactly at its endofpacket word.", "quantifier": "every input trace", "why_tests_cant": "traces are unbounded", "anchors": ["src/cocotb_bus/monitors/avalon.py:AvalonSTPkts._monitor_recv"]}
{"id": "C37", "title": "Avalon-ST packet channel handling", "statement": "With report_channel each packet is reported with the channel of its words; the driver rejects a channel outside 0..maxChannel or on a bus without channel, before anything of the packet is transferred.", "quantifier": "every packet and channel", "why_tests_cant": "unbounded", "anchors": ["src/cocotb_bus/drivers/avalon.py:AvalonSTPkts._send_string", "src/cocotb_bus/monitors/avalon.py:AvalonSTPkts._monitor_recv"]}
{"id": "C38", "title": "In-packet timeout", "statement": "With invalidTimeout n > 0 the packet monitor raises exactly when n consecutive non-reset cycles inside a packet transfer nothing; with 0 never.", "quantifier": "every input trace", "why_tests_cant": "traces are unbounded", "anchors": ["src/cocotb_bus/monitors/avalon.py:AvalonSTPkts._monitor_recv"]}
{"id": "C39", "title": "Packet transmission terminates", "statement": "Sending a finite packet on a bus whose ready is high at some point after every cycle completes.", "quantifier": "every packet and bus width", "why_tests_cant": "unbounded", "anchors": ["src/cocotb_bus/drivers/avalon.py:AvalonSTPkts._send_string"]}
{"id": "C40", "title": "Reset masks the packet monitor", "statement": "In cycles where the monitor's bus is in reset nothing is sampled: state, packets and errors are as if those cycles were absent.", "quantifier": "every trace with reset cycles anywhere", "why_tests_cant": "traces are unbounded", "anchors": ["src/cocotb_bus/monitors/avalon.py:AvalonSTPkts._monitor_recv", "src/cocotb_bus/monitors/__init__.py:BusMonitor.in_reset"]}
{"id": "C41", "title": "Avalon-MM master write", "statement": "A write holds address, data and write asserted and stable from the cycle it starts until the first edge with waitrequest low and is deasserted afterwards: the slave sees exactly one accepted write with that address and data.", "quantifier": "every waitrequest pattern, address and value", "why_tests_cant": "unbounded wait patterns", "anchors": ["src/cocotb_bus/drivers/avalon.py:AvalonMaster.write", "src/cocotb_bus/drivers/__init__.py:BusDriver._wait_for_nsignal"]}
{"id": "C42", "title": "Avalon-MM master read", "statement": "A read presents exactly one accepted read of the address and returns the readdata of the first cycle after acceptance in which readdatavalid is high (or of the cycle after acceptance if the bus has no readdatavalid).", "quantifier": "every waitrequest/readdatavalid pattern", "why_tests_cant": "unbounded wait patterns", "anchors": ["src/cocotb_bus/drivers/avalon.py:AvalonMaster.read"]}
{"id": "C43", "title": "Avalon memory byte enables", "statement": "A non-burst write updates exactly the enabled byte lanes of the addressed word and leaves the other lanes and all other addresses unchanged.", "quantifier": "every memory, address, data and byte-enable value", "why_tests_cant": "unbounded memories and data", "anchors": ["src/cocotb_bus/drivers/avalon.py:AvalonMemory._respond"]}
{"id": "C44", "title": "Avalon memory read responses", "statement": "Each non-burst read request is answered exactly once, in request order, with the value the memory held when the request was sampled (X if never written), not earlier than the configured latency; cycles without a response have readdatavalid low.", "quantifier": "every request trace, memory and latency choice", "why_tests_cant": "unbounded traces", "anchors": ["src/cocotb_bus/drivers/avalon.py:AvalonMemory._respond", "src/cocotb_bus/drivers/avalon.py:AvalonMemory._pad", "src/cocotb_bus/drivers/avalon.py:AvalonMemory._do_response"]}
{"id": "C45", "title": "Avalon memory burst write then burst read", "statement": "A burst write stores the little-endian bytes of its words at consecutive byte addresses and nothing else; a burst read of the same range then returns the same words in order.", "quantifier": "every address, burst length, width and data", "why_tests_cant": "unbounded bursts", "anchors": ["src/cocotb_bus/drivers/avalon.py:AvalonMemory._respond", "src/cocotb_bus/drivers/avalon.py:AvalonMemory._writing_byte_value", "src/cocotb_bus/drivers/avalon.py:AvalonMemory._write_burst_addr"]}
{"id": "C46", "title": "Avalon memory configuration is per instance", "statement": "Properties passed to one AvalonMemory do not affect another instance.", "quantifier": "every sequence of constructions", "why_tests_cant": "depends on construction history", "anchors": ["src/cocotb_bus/drivers/avalon.py:AvalonMemory.__init__"]}
{"id": "C47", "title": "Avalon memory burst accesses never fail because of random wait states", "statement": "A burst write completes without an exception for every outcome of the random wait-request generator.", "quantifier": "every outcome of the random generator", "why_tests_cant": "random outcomes are sampled by tests, not enumerated", "anchors": ["src/cocotb_bus/drivers/avalon.py:AvalonMemory._waitrequest", "src/cocotb_bus/drivers/avalon.py:AvalonMemory._respond"]}
{"id": "C48", "title": "Avalon memory burst addressing is exact", "statement": "The word address used by a burst read is the bus address divided by the word size for every address of every width.", "quantifier": "every address", "why_tests_cant": "large addresses are not sampled", "anchors": ["src/cocotb_bus/drivers/avalon.py:AvalonMemory._respond"]}
{"id": "C49", "title": "AXI burst parameter validation", "statement": "read and write reject with ValueError, before touching the bus, exactly the illegal bursts: length not positive or above the limit of the burst type (INCR 256, FIXED 16, WRAP 1/2/4/8/16), beat size not a positive power of two or above the bus width, or an INCR burst crossing a 4 KiB boundary; every other burst is accepted.", "quantifier": "every address, length, size, burst type and bus width", "why_tests_cant": "the parameter space is unbounded", "anchors": ["src/cocotb_bus/drivers/amba.py:AXI4Master._check_length", "src/cocotb_bus/drivers/amba.py:AXI4Master._check_size", "src/cocotb_bus/drivers/amba.py:AXI4Master._check_4kB_boundary_crossing"]}
{"id": "C50", "title": "AXI 4 KiB check is exact", "statement": "For power-of-two beat sizes up to 4096 an INCR burst is accepted if and only if every byte of every beat (aligned or not) lies in the same 4 KiB page as the start address.", "quantifier": "every address, size and length", "why_tests_cant": "unbounded", "anchors": ["src/cocotb_bus/drivers/amba.py:AXI4Master._check_4kB_boundary_crossing"]}
{"id": "C51", "title": "AXI write data lands at the right bytes", "statement": "The address, length, size, data and strobe values presented by an INCR or FIXED write make an AXI4-conforming memory store byte j of the value sequence at the byte address it belongs to if its byte enable is set, within the documented limits for unaligned addresses, and nothing else.", "quantifier": "every bus width, size, aligned or unaligned address, value sequence and byte-enable sequence", "why_tests_cant": "unbounded", "anchors": ["src/cocotb_bus/drivers/amba.py:AXI4Master._send_write_data", "src/cocotb_bus/drivers/amba.py:AXI4Master._send_write_address"]}
{"id": "C52", "title": "AXI WRAP bursts use the right byte lanes", "statement": "For WRAP bursts every beat is presented on the byte lanes of the beat's (wrapped) address.", "quantifier": "every size, length, address and bus width", "why_tests_cant": "unbounded", "anchors": ["src/cocotb_bus/drivers/amba.py:AXI4Master._send_write_data", "src/cocotb_bus/drivers/amba.py:AXI4Master.read"]}
{"id": "C53", "title": "AXI read data is reassembled", "statement": "A read from an AXI4-conforming memory returns the words whose little-endian bytes are the memory bytes starting at the address (the last word, or each word for FIXED, shortened for unaligned addresses).", "quantifier": "every bus width, size, address, length and memory", "why_tests_cant": "unbounded", "anchors": ["src/cocotb_bus/drivers/amba.py:AXI4Master.read"]}
{"id": "C54", "title": "AXI write then read", "statement": "Reading back a just-written INCR burst from a conforming memory returns the written values (the last one truncated if unaligned).", "quantifier": "every address, size, value list", "why_tests_cant": "unbounded", "anchors": ["src/cocotb_bus/drivers/amba.py:AXI4Master.write", "src/cocotb_bus/drivers/amba.py:AXI4Master.read"]}
{"id": "C55", "title": "AXI byte-enable list extension", "statement": "A byte-enable list shorter than the data is extended with its last element, None means all bytes, a longer list is cut; an empty list is an error.", "quantifier": "every byte-enable and data list", "why_tests_cant": "unbounded", "anchors": ["src/cocotb_bus/drivers/amba.py:AXI4Master._send_write_data"]}
{"id": "C56", "title": "AXI write channel handshakes", "statement": "The write address is transferred exactly once, and the data beats are transferred exactly once each, in order, with WLAST on exactly the last, for every ready pattern and every latency setting; payload is stable while valid waits for ready.", "quantifier": "every ready pattern, burst and latency", "why_tests_cant": "unbounded patterns", "anchors": ["src/cocotb_bus/drivers/amba.py:AXI4Master._send_write_address", "src/cocotb_bus/drivers/amba.py:AXI4Master._send_write_data"]}
{"id": "C57", "title": "AXI responses", "statement": "write returns normally if and only if the response is OKAY and otherwise raises AXIProtocolError carrying the response; read without return_rresp returns data if and only if all beats are OKAY and otherwise raises with the first non-OKAY response, with return_rresp it returns data and responses in order.", "quantifier": "every response sequence", "why_tests_cant": "unbounded bursts", "anchors": ["src/cocotb_bus/drivers/amba.py:AXI4Master.write", "src/cocotb_bus/drivers/amba.py:AXI4Master.read"]}
{"id": "C58", "title": "AXI read beat collection", "statement": "read collects exactly the beats transferred (RVALID and RREADY) from its address handshake up to and including the first with RLAST, and raises AXIReadBurstLengthMismatch if and only if their number differs from the requested length.", "quantifier": "every RVALID/RLAST pattern", "why_tests_cant": "unbounded patterns", "anchors": ["src/cocotb_bus/drivers/amba.py:AXI4Master.read"]}
{"id": "C59", "title": "AXI4-Lite is the single-beat restriction", "statement": "AXI4-Lite write rejects sequences, otherwise behaves as a full-width single-beat write and returns OKAY; read returns the single word.", "quantifier": "every value and address", "why_tests_cant": "unbounded", "anchors": ["src/cocotb_bus/drivers/amba.py:AXI4LiteMaster"]}
{"id": "C60", "title": "AXI4 slave serves bursts from its memory", "statement": "A master writing and reading through AXI4Slave observes the memory: a burst write updates exactly the addressed bytes, a burst read returns the memory contents beat by beat under every ready pattern.", "quantifier": "every request, beat size and ready pattern", "why_tests_cant": "unbounded", "anchors": ["src/cocotb_bus/drivers/amba.py:AXI4Slave"]}
{"id": "C61", "title": "XGMII lane encoding", "statement": "Encoding (byte, control) lanes into the bus word and decoding the word gives back the lanes, for interleaved and non-interleaved layouts and every number of lanes; the encoder starts from a clean word after each read.", "quantifier": "every lane assignment and number of lanes", "why_tests_cant": "unbounded", "anchors": ["src/cocotb_bus/drivers/xgmii.py:_XGMIIBus", "src/cocotb_bus/monitors/xgmii.py:XGMII._get_bytes"]}
{"id": "C62", "title": "XGMII driver can be constructed and used", "statement": "Constructing the XGMII driver on a signal of a multiple of nine bits drives idle and raises nothing.", "quantifier": "every signal width", "why_tests_cant": "all widths", "anchors": ["src/cocotb_bus/drivers/xgmii.py:XGMII.__init__", "src/cocotb_bus/drivers/xgmii.py:_XGMIIBus.value"]}
{"id": "C63", "title": "XGMII frame format", "statement": "A sent packet appears as start, preamble, the packet padded to 60 bytes, its CRC, a terminate, then idle, with no other control lanes.", "quantifier": "every packet and number of lanes", "why_tests_cant": "unbounded", "anchors": ["src/cocotb_bus/drivers/xgmii.py:XGMII._driver_send", "src/cocotb_bus/drivers/xgmii.py:XGMII.layer1", "src/cocotb_bus/drivers/xgmii.py:XGMII.terminate"]}
{"id": "C64", "title": "XGMII end-to-end", "statement": "A monitor on the bus receives exactly the packets sent (padded to 60 bytes), in order.", "quantifier": "every list of packets and number of lanes", "why_tests_cant": "unbounded", "anchors": ["src/cocotb_bus/drivers/xgmii.py:XGMII._driver_send", "src/cocotb_bus/monitors/xgmii.py:XGMII._monitor_recv"]}
{"id": "C65", "title": "XGMII monitor rejects bad frames", "statement": "Frames with a wrong preamble, shorter than 12 bytes or interrupted by a control character are not delivered, frames with a wrong CRC are not delivered, and a bad frame never affects the delivery of the next one.", "quantifier": "every lane trace", "why_tests_cant": "unbounded traces", "anchors": ["src/cocotb_bus/monitors/xgmii.py:XGMII._monitor_recv", "src/cocotb_bus/monitors/xgmii.py:XGMII._add_payload"]}
{"id": "C66", "title": "OPB access completes on acknowledge", "statement": "An OPB read or write that is acknowledged before the timeout returns normally (read: with the data of the acknowledge cycle), deselects the bus and releases it.", "quantifier": "every acknowledge pattern", "why_tests_cant": "unbounded patterns", "anchors": ["src/cocotb_bus/drivers/opb.py:OPBMaster.read", "src/cocotb_bus/drivers/opb.py:OPBMaster.write"]}
{"id": "C67", "title": "OPB timeout", "statement": "An OPB access raises OPBException exactly when 16 consecutive cycles without timeout suppression pass without acknowledge.", "quantifier": "every xferAck/toutSup pattern", "why_tests_cant": "unbounded patterns", "anchors": ["src/cocotb_bus/drivers/opb.py:OPBMaster.read", "src/cocotb_bus/drivers/opb.py:OPBMaster.write"]}
{"id": "C68", "title": "Result combination loses nothing", "statement": "The combined results contain, for each (name, package) pair, the test cases of all test suites of that pair in order, and the exit code is 1 exactly when a test case failed and the return code is not suppressed.", "quantifier": "every list of result files in which no test suite lies inside another (as cocotb writes them), every command line", "why_tests_cant": "unbounded inputs", "anchors": ["bin/combine_results.py:main"]}
{"id": "C69", "title": "Queued and direct transmissions never overlap", "statement": "A transmission started with send() and one taken from the queue are never in progress on the same driver at the same time.", "quantifier": "every interleaving of append, send and scheduler steps", "why_tests_cant": "schedules are unbounded", "anchors": ["src/cocotb_bus/drivers/__init__.py:Driver.send", "src/cocotb_bus/drivers/__init__.py:Driver._send_thread"]}
{"id": "C70", "title": "append accepts the keywords of send", "statement": "Every keyword accepted by send (including sync) can be given to append: the transaction is transmitted and the send thread survives.", "quantifier": "every transaction and every continuation", "why_tests_cant": "needs all continuations of the history", "anchors": ["src/cocotb_bus/drivers/__init__.py:Driver.append", "src/cocotb_bus/drivers/__init__.py:Driver._send_thread", "src/cocotb_bus/drivers/__init__.py:Driver._send"]}
{"id": "C71", "title": "A rejected Avalon-ST word is not transferred", "statement": "If sending a value raises because the value does not fit the bus, no word is transferred on account of that send.", "quantifier": "every value that cannot be encoded, every ready pattern", "why_tests_cant": "every value and continuation", "anchors": ["src/cocotb_bus/drivers/avalon.py:AvalonST._driver_send"]}
{"id": "C72", "title": "Packet bus configuration is checked at construction", "statement": "Constructing the packet driver or monitor raises AttributeError exactly when a bus of several symbols has no empty signal, the channel is wider than 128 bits, or maxChannel does not fit the channel signal.", "quantifier": "every configuration and signal widths", "why_tests_cant": "all configurations", "anchors": ["src/cocotb_bus/drivers/avalon.py:AvalonSTPkts.__init__", "src/cocotb_bus/monitors/avalon.py:AvalonSTPkts.__init__"]}
{"id": "C73", "title": "Packet framing for other symbol sizes", "statement": "With dataBitsPerSymbol other than 8, empty counts symbols, so that a monitor with the same configuration recovers every packet.", "quantifier": "every packet and symbol size dividing the bus width", "why_tests_cant": "unbounded", "anchors": ["src/cocotb_bus/drivers/avalon.py:AvalonSTPkts._send_string", "src/cocotb_bus/monitors/avalon.py:AvalonSTPkts._monitor_recv"]}
{"id": "C74", "title": "Packets sent as iterables drive their words", "statement": "Sending an iterable of words puts each word's signals on the bus, in order.", "quantifier": "every iterable, ready pattern and valid generator", "why_tests_cant": "unbounded", "anchors": ["src/cocotb_bus/drivers/avalon.py:AvalonSTPkts._send_iterable"]}
{"id": "C75", "title": "Avalon-MM accesses in sequence", "statement": "Reads and writes made one after the other by a test are accepted by the slave exactly once each, in call order, with their address and data; every read returns its own data and the bus is idle afterwards.", "quantifier": "every sequence of accesses, every slave timing", "why_tests_cant": "unbounded sequences and timings", "anchors": ["src/cocotb_bus/drivers/avalon.py:AvalonMaster.read", "src/cocotb_bus/drivers/avalon.py:AvalonMaster.write"]}
{"id": "C76", "title": "A failed Avalon-MM access leaves the master usable", "statement": "An access that raises leaves the bus idle and the master ready for the next access.", "quantifier": "every failing access and every continuation", "why_tests_cant": "needs all continuations", "anchors": ["src/cocotb_bus/drivers/avalon.py:AvalonMaster.read", "src/cocotb_bus/drivers/avalon.py:AvalonMaster.write", "src/cocotb_bus/drivers/__init__.py:BusDriver._wait_for_nsignal"]}
{"id": "C77", "title": "The Avalon memory survives every burst request", "statement": "No burst request, whatever words it addresses, ends the memory process: later requests are still answered.", "quantifier": "every memory content and request", "why_tests_cant": "all memory contents and continuations", "anchors": ["src/cocotb_bus/drivers/avalon.py:AvalonMemory._respond"]}
{"id": "C78", "title": "A failed OPB access leaves the master usable", "statement": "An OPB access that raises deselects the slave and leaves the master ready for the next access.", "quantifier": "every failing access and every continuation", "why_tests_cant": "needs all continuations", "anchors": ["src/cocotb_bus/drivers/opb.py:OPBMaster.read", "src/cocotb_bus/drivers/opb.py:OPBMaster.write"]}
{"id": "C79", "title": "OPB write presents its operands to the slave", "statement": "While an OPB write is selected, ABus carries the address, RNW is 0, all byte enables are set and the slave's data input DBus_in carries the value.", "quantifier": "every address, value and acknowledge pattern", "why_tests_cant": "every pattern", "anchors": ["src/cocotb_bus/drivers/opb.py:OPBMaster.write"]}
{"id": "C80", "title": "Every failure is reported once", "statement": "The combine script prints one line for every failure element of every test case, with the suite name, class name, test name and package it came from, and no other failure lines.", "quantifier": "every list of result files without nested test suites", "why_tests_cant": "unbounded inputs", "anchors": ["bin/combine_results.py:main"]}
{"id": "C81", "title": "Nested test suites are combined once", "statement": "A test case in a test suite inside another test suite is counted once in the totals printed.", "quantifier": "every result file with nested test suites", "why_tests_cant": "unbounded inputs", "anchors": ["bin/combine_results.py:main"]}
{"id": "C82", "title": "Every monitor can be scoreboarded", "statement": "Any Monitor of the library can be given to add_interface, and each transaction it receives is then compared with the expected one (a mismatch is an error, a match is not), whatever class of monitor it is.", "quantifier": "every monitor, history and expected list", "why_tests_cant": "unbounded histories", "anchors": ["src/cocotb_bus/scoreboard.py:Scoreboard.add_interface", "src/cocotb_bus/monitors/xgmii.py:XGMII", "src/cocotb_bus/monitors/__init__.py:Monitor"]}
{"id": "C83", "title": "A rejected interface leaves the scoreboard unchanged", "statement": "A call of add_interface that raises has no effect on the scoreboard: the interfaces it already has, what they expect and the verdict stay the same.", "quantifier": "every scoreboard state, every rejected call", "why_tests_cant": "all states", "anchors": ["src/cocotb_bus/scoreboard.py:Scoreboard.add_interface"]}
{"id": "C84", "title": "The constructor's reorder_depth is honoured", "statement": "A reorder_depth given to the Scoreboard constructor is the reordering depth of interfaces added without one.", "quantifier": "every depth", "why_tests_cant": "all depths and histories", "anchors": ["src/cocotb_bus/scoreboard.py:Scoreboard.__init__", "src/cocotb_bus/scoreboard.py:Scoreboard.add_interface"]}
{"id": "C85", "title": "Driver to scoreboard end to end", "statement": "Packets appended to the packetized Avalon-ST driver, in any interleaving with other tasks and with any idle time between them, arrive at a scoreboard on a monitor of the same bus exactly once each, in order and unchanged: the scoreboard's verdict is a pass exactly when what the test expected is what it appended, and a run that is cut short delivers a prefix and no error, unless a packet is held up for the monitor's invalidTimeout.", "quantifier": "every schedule, list of packets, ready pattern, valid generator, bus width and symbol order", "why_tests_cant": "unbounded schedules and patterns", "anchors": ["src/cocotb_bus/drivers/__init__.py:Driver.append", "src/cocotb_bus/drivers/__init__.py:Driver._send_thread", "src/cocotb_bus/drivers/avalon.py:AvalonSTPkts._driver_send", "src/cocotb_bus/monitors/avalon.py:AvalonSTPkts._monitor_recv", "src/cocotb_bus/scoreboard.py:Scoreboard.check_received_transaction"]}
{"id": "C86", "title": "Concurrent AXI writes are served in call order", "statement": "Writes issued by several tasks at the same time do not mix: each channel offers a request or beat unchanged until it is accepted, the slave sees the requests in call order, the beats of each write contiguously and in that order with WLAST on the last of each, every write returns or raises according to its own response, the memory ends up as if the writes had been made one after the other, and a write with illegal parameters has no effect on the others.", "quantifier": "every list of writes and call times, every ready and response timing of a slave that answers after address and data", "why_tests_cant": "unbounded interleavings", "anchors": ["src/cocotb_bus/drivers/amba.py:AXI4Master.write", "src/cocotb_bus/drivers/amba.py:AXI4Master._send_write_address", "src/cocotb_bus/drivers/amba.py:AXI4Master._send_write_data"]}
{"id": "C87", "title": "Concurrent AXI reads get their own data", "statement": "Reads issued by several tasks at the same time do not mix: the slave sees the requests in call order, and every read returns the data (or error) of its own burst, as if it had been alone on the bus.", "quantifier": "every list of reads and call times, every ready and data timing of an in-order slave", "why_tests_cant": "unbounded interleavings", "anchors": ["src/cocotb_bus/drivers/amba.py:AXI4Master.read"]}
{"id": "C88", "title": "Avalon master on an Avalon memory", "statement": "An Avalon master connected to the Avalon memory of the library behaves like an array: every sequence of reads and writes made through the master ends within a known number of cycles, raises nothing, each read returns the word last written to its address (the initial content, or X, if none was written), and the memory then holds what was written.", "quantifier": "every sequence of accesses, every initial memory, every latency drawn, on buses with readdatavalid or without any read latency", "why_tests_cant": "unbounded sequences and random latencies", "anchors": ["src/cocotb_bus/drivers/avalon.py:AvalonMaster.read", "src/cocotb_bus/drivers/avalon.py:AvalonMaster.write", "src/cocotb_bus/drivers/avalon.py:AvalonMemory._respond"]}
{"id": "C89", "title": "Avalon master on an Avalon memory without readdatavalid", "statement": "On a bus without readdatavalid too, a read through the Avalon master returns what the Avalon memory holds, whatever read latency the memory was constructed with.", "quantifier": "every memory, address and latency", "why_tests_cant": "all memories and latencies", "anchors": ["src/cocotb_bus/drivers/avalon.py:AvalonMaster.read", "src/cocotb_bus/drivers/avalon.py:AvalonMemory._respond", "src/cocotb_bus/drivers/avalon.py:AvalonMemory.__init__"]}
{"id": "C90", "title": "A failed AXI write has no effect on the other writes", "statement": "A write that raises, for whatever reason, has no effect on other writes: they store their own data at their own addresses.", "quantifier": "every list of writes, some of which raise, every slave timing", "why_tests_cant": "unbounded interleavings and continuations", "anchors": ["src/cocotb_bus/drivers/amba.py:AXI4Master.write", "src/cocotb_bus/drivers/amba.py:AXI4Master._send_write_address", "src/cocotb_bus/drivers/amba.py:AXI4Master._send_write_data"]}
{"id": "C91", "title": "A failed AXI read has no effect on the other reads", "statement": "A read whose address does not fit ARADDR raises and at most delays the other reads: the slave sees their requests in call order and each of them gets its own burst.", "quantifier": "every list of reads, some of which have too wide addresses, every slave timing", "why_tests_cant": "unbounded interleavings", "anchors": ["src/cocotb_bus/drivers/amba.py:AXI4Master.read"]}
{"id": "C92", "title": "A BitDriver can be stopped and started again", "statement": "After start(generator) the signal follows that generator's waveform from its beginning, whatever the driver did before; after stop() it keeps its value; start() without a generator goes on with the next pair of the generator before.", "quantifier": "every history of starts and stops, all generators", "why_tests_cant": "unbounded histories", "anchors": ["src/cocotb_bus/drivers/__init__.py:BitDriver.start", "src/cocotb_bus/drivers/__init__.py:BitDriver.stop", "src/cocotb_bus/drivers/__init__.py:BitDriver._cr_twiddler"]}
{"id": "C93", "title": "Plain Avalon-ST from append to scoreboard", "statement": "Values appended to a plain (word by word) Avalon-ST driver arrive at the monitor on the same bus, each once and in order, as the bytes of the same number in the monitor's byte order; a scoreboard fed by that monitor passes exactly if the test expected those, in order and in time.", "quantifier": "all schedules of appends, idle cycles, ready patterns, valid generators, bus widths, values and interleavings of expectations", "why_tests_cant": "unbounded schedules and data", "anchors": ["src/cocotb_bus/drivers/__init__.py:Driver.append", "src/cocotb_bus/drivers/__init__.py:Driver._send_thread", "src/cocotb_bus/drivers/avalon.py:AvalonST._driver_send", "src/cocotb_bus/monitors/avalon.py:AvalonST._monitor_recv", "src/cocotb_bus/scoreboard.py:Scoreboard"]}
{"id": "C94", "title": "The Avalon memory survives undefined operands", "statement": "A request with an undefined address, data, byte enable or burst count does not end the memory: later requests are served.", "quantifier": "every configuration, history of requests and request with undefined operands", "why_tests_cant": "unbounded histories", "anchors": ["src/cocotb_bus/drivers/avalon.py:AvalonMemory._respond"]}
{"id": "C95", "title": "A killed monitor is silent", "statement": "After kill() no transaction is delivered, queued, counted or notified, whatever happens on the bus; transactions received before stay available, and a later wait_for_recv never returns one.", "quantifier": "every history of callbacks, receptions, waits and kills, before and after", "why_tests_cant": "all interleavings of unbounded histories", "anchors": ["src/cocotb_bus/monitors/__init__.py:Monitor.kill", "src/cocotb_bus/monitors/__init__.py:Monitor._recv", "src/cocotb_bus/monitors/__init__.py:Monitor.wait_for_recv"]}
{"id": "C96", "title": "Every callable can be a callback", "statement": "Any callable given to the constructor or to add_callback is called with every transaction received later.", "quantifier": "every callable and history", "why_tests_cant": "every kind of callable in every state", "anchors": ["src/cocotb_bus/monitors/__init__.py:Monitor.add_callback", "src/cocotb_bus/monitors/__init__.py:Monitor.__init__"]}
{"id": "C97", "title": "wait_for_recv ends after its timeout", "statement": "wait_for_recv(timeout) returns None when the timeout is over and nothing was received, whatever the value of timeout.", "quantifier": "every timeout and history", "why_tests_cant": "all values and interleavings", "anchors": ["src/cocotb_bus/monitors/__init__.py:Monitor.wait_for_recv"]}
{"id": "C98", "title": "Several Avalon memories on one dictionary are one memory", "statement": "AvalonMemory objects constructed with the same dictionary are ports of one memory: whatever requests arrive on their buses, every read on every port is answered, in order, with the value last written to that address through any of the ports. A port that meets a request with undefined operands ends, and the others go on.", "quantifier": "every number of ports, every sequence of cycles, every order of the ports in each cycle, all latencies drawn", "why_tests_cant": "every interleaving of unboundedly many accesses", "anchors": ["src/cocotb_bus/drivers/avalon.py:AvalonMemory.__init__", "src/cocotb_bus/drivers/avalon.py:AvalonMemory._respond"]}
{"id": "C99", "title": "Wait states of an Avalon memory are bounded", "statement": "Whatever the masters request and whatever is drawn at random, as long as AvalonMemory runs it keeps a write request waiting for at most MaxWaitReqLen + 1 consecutive cycles (5 without options), and at most two more while a read is requested as well.", "quantifier": "every sequence of cycles on the bus with requests of at least one beat, every random stream, every configuration", "why_tests_cant": "unbounded histories and all random choices", "anchors": ["src/cocotb_bus/drivers/avalon.py:AvalonMemory._waitrequest", "src/cocotb_bus/drivers/avalon.py:AvalonMemory._respond"]}
{"id": "C100", "title": "Combining hides no failure, whatever the shape of the files", "statement": "The combine script ends on every list of result files, also with test suites inside test suites and suites of the same name and package inside each other, where it changes a tree while walking over it; every failing test case of every suite is reported under its suite's name and package, and the exit code is then 1 unless suppressed. If no test suite lies inside a test case, no failure is invented either.", "quantifier": "every list of result files, every nesting and every choice of names", "why_tests_cant": "the walk visits elements it has itself added; its length is exponential in the nesting", "anchors": ["bin/combine_results.py:main"]}
{"id": "C101", "title": "A killed driver is silent", "statement": "After kill() the send thread starts no transmission, sets no event and calls no callback, whatever is appended afterwards; entries not yet sent stay in the queue until clear(); send() keeps working, and a second kill() changes nothing.", "quantifier": "every history before the kill, every history after it, every behaviour of callbacks", "why_tests_cant": "the kill can fall between any two steps of the send thread", "anchors": ["drivers/__init__.py:Driver.kill", "drivers/__init__.py:Driver._send_thread"]}
{"id": "C102", "title": "A killed Avalon-ST driver transfers nothing more", "statement": "After kill() of a plain Avalon-ST driver no further word is transferred on its bus.", "quantifier": "every moment of the kill, every history of ready before and after, every valid generator", "why_tests_cant": "the kill can fall at any cycle of any transmission", "anchors": ["drivers/__init__.py:Driver.kill", "drivers/avalon.py:AvalonST._driver_send"]}
{"id": "C103", "title": "Waiting for a signal", "statement": "_wait_for_signal, which the base class offers to drivers, returns in the first time step in which the signal settles to 1, ignoring glitches, and does not miss it; _wait_for_nsignal returns in the first time step in which it settles to 0, unless the signal becomes undefined before, which raises ValueError.", "quantifier": "every history of the signal, time step by time step and inside them", "why_tests_cant": "glitches and undefined values can come in any order before the awaited value", "anchors": ["drivers/__init__.py:BusDriver._wait_for_signal", "drivers/__init__.py:BusDriver._wait_for_nsignal"]}
{"id": "C104", "title": "Every signal name can be used", "statement": "A bus whose attributes have any names can be built, driven, sampled and captured: the names of the attributes do not disturb the bus.", "quantifier": "every entity, bus and list of attribute names", "why_tests_cant": "the names come from the design under test", "anchors": ["bus.py:Bus.__init__", "bus.py:Bus._add_signal", "bus.py:Bus.drive", "bus.py:Bus.capture", "bus.py:Bus.sample"]}
{"id": "C105", "title": "combine_results covers the directory", "statement": "A run of combine_results.py reads every file called results.xml in the directory and below exactly once and no other file, changes nothing but the output file, which then contains the combined suites, and its exit status is 1 exactly if a test in one of these files failed and this is not suppressed.", "quantifier": "every directory tree, set of arguments and contents of the files", "why_tests_cant": "directory trees and files are unbounded", "anchors": ["bin/combine_results.py:find_all", "bin/combine_results.py:main"]}
{"id": "C106", "title": "combine_results never succeeds without having read the results", "statement": "If the results cannot be read (the directory does not exist, a file is damaged) or the output cannot be written, the exit status is not 0 and no output is written.", "quantifier": "every directory tree and set of arguments", "why_tests_cant": "which files are damaged or missing is arbitrary", "anchors": ["bin/combine_results.py:find_all", "bin/combine_results.py:main"]}
{"id": "C107", "title": "Running combine_results again gives the same", "statement": "A second run with the same arguments reports the same, ends with the same status and leaves the output file as it is.", "quantifier": "every directory tree and set of arguments", "why_tests_cant": "directory trees and files are unbounded", "anchors": ["bin/combine_results.py:find_all", "bin/combine_results.py:main"]}
{"id": "C108", "title": "A test bench with reference models finds exactly the wrong outputs", "statement": "A test bench with any number of input monitors whose callbacks are reference models appending the expected outputs, and output monitors connected to one scoreboard with these lists, passes exactly if in every channel the outputs are the predicted ones in order (or reordered within the allowed depth) and none came before the input that explains it; the channels do not influence each other's verdict. A bench for a register, with the initial value in the list, passes exactly if the outputs are the inputs one cycle later, whichever monitor runs first in each cycle.", "quantifier": "every number of channels, reference model, initial contents, reorder depth, inputs, outputs and interleaving", "why_tests_cant": "inputs, outputs and interleavings are unbounded and reference models are arbitrary", "anchors": ["src/cocotb_bus/scoreboard.py:Scoreboard.add_interface", "src/cocotb_bus/scoreboard.py:Scoreboard.result", "src/cocotb_bus/monitors/__init__.py:Monitor._recv", "examples/dff/tests/dff_cocotb.py:DFF_TB"]}
{"id": "C109", "title": "The reorder window uses the comparison of the interface", "statement": "With reorder_depth d, a received transaction that passes the interface's comparison (type and value with strict_type=True, string forms with strict_type=False) with one of the first d+1 expected transactions is no error and consumes the earliest such one; one that passes with none of them is an error.", "quantifier": "every expected list, depth, strict_type, transaction and transaction type with its own ==, type() and str()", "why_tests_cant": "transactions and their comparison are arbitrary", "anchors": ["src/cocotb_bus/scoreboard.py:Scoreboard.add_interface", "src/cocotb_bus/scoreboard.py:Scoreboard.compare"]}
{"id": "C110", "title": "In-order verdict for transactions of any kind", "statement": "With one interface and reorder_depth 0, result passes if and only if the received and the expected transactions agree one by one under the comparison of the interface (with strict_type=False: the sequences of string forms are equal) and none came before it was expected; with a function as expected output, if and only if every transaction agrees with the function's answer to it.", "quantifier": "every transaction type with its own ==, type() and str(), every strict_type, function and interleaving", "why_tests_cant": "transactions, functions and histories are arbitrary", "anchors": ["src/cocotb_bus/scoreboard.py:Scoreboard.add_interface", "src/cocotb_bus/scoreboard.py:Scoreboard.compare", "src/cocotb_bus/scoreboard.py:Scoreboard.result"]}
{"id": "C111", "title": "An AXI4Master can access the memory of an AXI4Slave", "statement": "With an AXI4Master connected to an AXI4Slave, a legal write returns and its values are in the slave's memory, and a legal read returns the bytes of the memory.", "quantifier": "every legal access, bus width, memory, latency, number of cycles and value of the signals nobody drives", "why_tests_cant": "the two sides run concurrently for any number of cycles", "anchors": ["src/cocotb_bus/drivers/amba.py:AXI4Master.write", "src/cocotb_bus/drivers/amba.py:AXI4Master.read", "src/cocotb_bus/drivers/amba.py:AXI4Slave"]}
{"id": "C112", "title": "A packet monitor that could not be constructed delivers nothing", "statement": "If the constructor of the Avalon-ST packet monitor raises (report_channel without a channel signal, no empty signal, maxChannel too large, channel too wide), the callback and event given to it never get a packet.", "quantifier": "every bus and configuration, every sequence of bus values afterwards", "why_tests_cant": "configurations and bus histories are arbitrary", "anchors": ["src/cocotb_bus/monitors/avalon.py:AvalonSTPkts.__init__", "src/cocotb_bus/monitors/avalon.py:AvalonSTPkts._monitor_recv", "src/cocotb_bus/monitors/__init__.py:Monitor.__init__"]}
{"id": "C113", "title": "Avalon-MM calls made by several tasks all take effect", "statement": "Every read or write of an AvalonMaster that returns has been accepted by the slave exactly once, whichever tasks of the test make the calls and whenever they make them.", "quantifier": "every number of tasks, every list of calls per task, every cycle in which they begin, every slave", "why_tests_cant": "the interleavings of the tasks and the slave's timing are unbounded", "anchors": ["src/cocotb_bus/drivers/avalon.py:AvalonMaster.read", "src/cocotb_bus/drivers/avalon.py:AvalonMaster.write", "src/cocotb_bus/drivers/__init__.py:BusDriver._acquire_lock", "src/cocotb_bus/drivers/__init__.py:BusDriver._release_lock"]}
{"id": "C114", "title": "An Avalon memory works on every bus it accepts", "statement": "An AvalonMemory on a bus that lacks a signal it needs is rejected at construction and does nothing; one that has been constructed never stops because a signal is missing.", "quantifier": "every combination of optional signals, every configuration, every request sequence and random stream", "why_tests_cant": "a missing signal is noticed only when a request uses it; the request sequences are unbounded", "anchors": ["src/cocotb_bus/drivers/avalon.py:AvalonMemory.__init__", "src/cocotb_bus/drivers/avalon.py:AvalonMemory._respond"]}
{"id": "C115", "title": "An Avalon-MM master works on every bus it accepts", "statement": "An AvalonMaster on a bus that lacks a signal it needs is rejected at construction; with one that has been constructed no access ends because a signal is missing.", "quantifier": "every combination of optional signals, every access, every slave", "why_tests_cant": "a missing signal is noticed only at the end of an access of unbounded length", "anchors": ["src/cocotb_bus/drivers/avalon.py:AvalonMM.__init__", "src/cocotb_bus/drivers/avalon.py:AvalonMaster.read"]}
{"id": "C116", "title": "XGMII: from append to the scoreboard", "statement": "Packets appended to an XGMII driver arrive at a scoreboard on an XGMII monitor of the same bus in order, complete and padded to 60 bytes, without an error being logged; its verdict is a pass exactly if the test expected these packets in this order, each before it arrived.", "quantifier": "every schedule of appends, clears and steps of the send thread, every packet sequence, gap pattern, lane count and layout, and every interleaving of expectations and receptions", "why_tests_cant": "the property composes queue, send thread, word encoding, monitor and scoreboard over unbounded histories", "anchors": ["src/cocotb_bus/drivers/xgmii.py:XGMII._driver_send", "src/cocotb_bus/drivers/__init__.py:Driver._send_thread", "src/cocotb_bus/monitors/xgmii.py:XGMII._monitor_recv", "src/cocotb_bus/scoreboard.py:Scoreboard.add_interface"]}
{"id": "C117", "title": "Changing the valid generator loses no word", "statement": "While an Avalon-ST driver sends, set_valid_generator may be called at any time with any generator: every word sent is still transferred exactly once and in order, a word on offer stays unchanged until it is accepted, nothing is raised, and the sends return once the sink has been ready often enough.", "quantifier": "every sequence of words, every ready sequence, and every history of set_valid_generator calls from other tasks at arbitrary cycles", "why_tests_cant": "the property quantifies over all schedules of calls against the driver's gap and handshake cycles", "anchors": ["src/cocotb_bus/drivers/__init__.py:ValidatedBusDriver.set_valid_generator", "src/cocotb_bus/drivers/avalon.py:AvalonST._driver_send"]}
{"id": "C118", "title": "A new valid generator is used from its first pair", "statement": "Whenever set_valid_generator is called, the words sent from then on are throttled by the new generator, beginning with its first (on, off) pair.", "quantifier": "every moment of the call relative to the sends, every generator and every ready sequence", "why_tests_cant": "whether a pair is lost depends on the cycle in which the call is made", "anchors": ["src/cocotb_bus/drivers/__init__.py:ValidatedBusDriver.set_valid_generator", "src/cocotb_bus/drivers/avalon.py:AvalonST._driver_send"]}
{"id": "C119", "title": "A re-implemented compare is called once per transaction", "statement": "A sub-class of Scoreboard that re-implements compare (which may count errors in any way, or raise) gets exactly one call per received transaction, in order of arrival, each with the expected transaction the reorder depth selects and no expected transaction twice; the verdict is that its own count is zero and everything expected has come; if it raises, that monitor's checking stops there.", "quantifier": "every compare (including one that depends on the calls before), every reorder depth, every interleaving of expectations and receptions", "why_tests_cant": "the sub-class and its history are arbitrary; tests fix one", "anchors": ["src/cocotb_bus/scoreboard.py:Scoreboard.compare", "src/cocotb_bus/scoreboard.py:Scoreboard.add_interface", "src/cocotb_bus/scoreboard.py:Scoreboard.result"]}
{"id": "C120", "title": "An Avalon memory accepts only data buses it can serve", "statement": "An AvalonMemory on a bus whose readdata and writedata have different widths is either refused at construction or answers reads.", "quantifier": "every pair of widths, every memory content, every sequence of bus requests and every random latency", "why_tests_cant": "the failure depends on the widths of the user's bus and appears only at the first read response", "anchors": ["src/cocotb_bus/drivers/avalon.py:AvalonMemory.__init__", "src/cocotb_bus/drivers/avalon.py:AvalonMemory._do_response"]}
{"id": "C121", "title": "Changing the valid generator while packets are sent changes only the gaps", "statement": "If set_valid_generator is called at any time while packets (or an iterable) are being sent, the words transferred still carry the packets exactly, a monitor receives every packet once and in order, and the sends return if the sink accepts often enough.", "quantifier": "every configuration, list of packets, ready behaviour, and every set of cycles in which any generators are set", "why_tests_cant": "the calls come from another task and can fall into any cycle: the synchronising cycle, the gap, or the cycles in which a word waits", "anchors": ["src/cocotb_bus/drivers/avalon.py:AvalonSTPkts._send_string", "src/cocotb_bus/drivers/avalon.py:AvalonSTPkts._send_iterable", "src/cocotb_bus/drivers/__init__.py:ValidatedBusDriver.set_valid_generator"]}
{"id": "C122", "title": "A loop of wait_for_recv sees every transaction", "statement": "A task that does nothing but await wait_for_recv() in a loop and handle what it returns gets every transaction the monitor receives after the first call, in order.", "quantifier": "every interleaving of receptions and of the scheduler's resumptions, and every time the handling takes", "why_tests_cant": "whether a transaction is lost depends on how receptions fall between the resumptions of the task", "anchors": ["src/cocotb_bus/monitors/__init__.py:Monitor.wait_for_recv", "src/cocotb_bus/monitors/__init__.py:Monitor._recv"]}
{"id": "C123", "title": "sample gives attributes of every kind the signal's value", "statement": "bus.sample(obj) makes every attribute that obj shares with the bus read as the bits of its signal, whatever kind of object the attribute is: an object with a set_binstr method is updated in place and keeps its own options, any other is replaced; the other attributes are left alone.", "quantifier": "every bus, every object and every class of attributes and values", "why_tests_cant": "tests sample into attributes of the signal's own width", "anchors": ["src/cocotb_bus/bus.py:Bus.sample"]}
{"id": "C124", "title": "A scoreboard never passes what it could not compare", "statement": "If comparing, converting or printing a transaction raises an exception (== or != of the transactions, str(), a callable expected output, the messages), result does not pass: a pass means that every transaction received was compared and agreed.", "quantifier": "every history of expectations and receptions, every reorder depth, transactions and callables that may raise anywhere", "why_tests_cant": "a test bench would need transactions that raise at one particular comparison", "anchors": ["src/cocotb_bus/scoreboard.py:Scoreboard.compare", "src/cocotb_bus/scoreboard.py:Scoreboard.add_interface", "src/cocotb_bus/scoreboard.py:Scoreboard.result"]}
{"id": "C125", "title": "Generators may be any iterable and may raise", "statement": "A valid generator (ValidatedBusDriver, Avalon-ST) and the generator of a BitDriver may be any iterable of pairs, as annotated; a set_valid_generator that raises leaves the driver working as before; an exception of the generator is raised by one send and costs that word only.", "quantifier": "every iterable or iterator that may raise at any call, every state of the driver, every list of words and ready sequence", "why_tests_cant": "the exception must come at one particular call of the generator, with a word in progress", "anchors": ["src/cocotb_bus/drivers/__init__.py:ValidatedBusDriver._next_valids", "src/cocotb_bus/drivers/__init__.py:ValidatedBusDriver.set_valid_generator", "src/cocotb_bus/drivers/__init__.py:BitDriver._cr_twiddler", "src/cocotb_bus/drivers/avalon.py:AvalonST._driver_send"]}
{"id": "C126", "title": "Corrupted XGMII frames are reported", "statement": "A frame whose data bytes (preamble, payload, CRC) arrive at the XGMII monitor with at least one wrong bit, all wrong bits lying within 32 consecutive bits or being at most two bits anywhere in a frame below 2^29 bytes, causes an error to be logged for that frame.", "quantifier": "every bus width and layout, every payload, every pattern of wrong bits of these kinds at every place, every stream of frames around it", "why_tests_cant": "the error patterns and payloads are unbounded; the claim rests on the algebra of the CRC polynomial", "anchors": ["src/cocotb_bus/monitors/xgmii.py:XGMII._monitor_recv", "src/cocotb_bus/drivers/xgmii.py:XGMII.layer1"]}
{"id": "C127", "title": "An Avalon memory serves what it was constructed with", "statement": "An AvalonMemory constructed without burstcount, with any dictionary of integers and any readlatency_min and readlatency_max, answers every read and performs every write for as long as the requests have defined operands.", "quantifier": "every dictionary, every pair of latencies, every sequence of requests, every random draw", "why_tests_cant": "the memory must be read at one particular address, after particular writes", "anchors": ["src/cocotb_bus/drivers/avalon.py:AvalonMemory.__init__", "src/cocotb_bus/drivers/avalon.py:AvalonMemory._pad", "src/cocotb_bus/drivers/avalon.py:AvalonMemory._do_response", "src/cocotb_bus/drivers/avalon.py:AvalonMemory._respond"]}
{"id": "C128", "title": "AXI bursts put on the bus are bursts AXI4 allows", "statement": "Every burst an AXI4Master or AXI4LiteMaster requests on AWxxx or ARxxx is one the AXI4 specification allows: beat size a power of two up to the bus width, 1 to 256 beats for INCR, 1 to 16 for FIXED, 2, 4, 8 or 16 for WRAP, WRAP only at an address that is a multiple of the beat size, and no byte of any beat in another 4 KiB page than the address.", "quantifier": "every set of calls of any number of tasks, with any parameters, every ready pattern", "why_tests_cant": "unbounded parameters; the checks must be right together for every combination", "anchors": ["src/cocotb_bus/drivers/amba.py:AXI4Master._check_length", "src/cocotb_bus/drivers/amba.py:AXI4Master._check_size", "src/cocotb_bus/drivers/amba.py:AXI4Master._check_4kB_boundary_crossing", "src/cocotb_bus/drivers/amba.py:AXI4Master._send_write_address", "src/cocotb_bus/drivers/amba.py:AXI4Master.read"]}
{"id": "C129", "title": "Operands that do not fit are rejected", "statement": "An access of AvalonMaster, OPBMaster or AXI4Master whose address, value or byte enable does not fit the signal or beat it is meant for raises an exception and requests nothing on the bus; it never becomes an access with other operands.", "quantifier": "every address, value, byte enable and bus width, every bus state", "why_tests_cant": "the operands are unbounded integers, negative ones included", "anchors": ["src/cocotb_bus/drivers/avalon.py:AvalonMaster.write", "src/cocotb_bus/drivers/avalon.py:AvalonMaster.read", "src/cocotb_bus/drivers/opb.py:OPBMaster.write", "src/cocotb_bus/drivers/opb.py:OPBMaster.read", "src/cocotb_bus/drivers/amba.py:AXI4Master.write", "src/cocotb_bus/drivers/amba.py:AXI4Master._send_write_data"]}
{"id": "C130", "title": "A byte stream from a socket reaches the packet monitor unchanged", "statement": "With polled_socket_attachment on a packetized Avalon-ST driver, the packets the monitor delivers are the chunks received from the socket, one packet per chunk, in order: their bytes are always a prefix of the bytes of the socket and, when everything has been sent, all of them; would-block results, the end of the stream and socket errors neither lose nor repeat nor add a byte.", "quantifier": "every sequence of recv results, every interleaving of polling and send thread, every ready pattern and valid generator", "why_tests_cant": "unbounded streams, chunk boundaries, interleavings and back-pressure", "anchors": ["src/cocotb_bus/drivers/__init__.py:polled_socket_attachment", "src/cocotb_bus/drivers/__init__.py:Driver._send_thread", "src/cocotb_bus/drivers/avalon.py:AvalonSTPkts._send_string", "src/cocotb_bus/monitors/avalon.py:AvalonSTPkts._monitor_recv"]}
{"id": "C131", "title": "An undefined AXI response fails only the access it answers", "statement": "A read or write whose response (RRESP, BRESP) has undefined bits raises ValueError, and is the only access to fail: an access made afterwards or at the same time by another task gets its own data and response.", "quantifier": "every access, every ready, valid and response pattern, every later or concurrent access", "why_tests_cant": "unbounded histories and interleavings", "anchors": ["src/cocotb_bus/drivers/amba.py:AXI4Master.read", "src/cocotb_bus/drivers/amba.py:AXI4Master.write"]}
{"id": "C132", "title": "A monitor given a reset ignores the bus during the reset", "statement": "An Avalon-ST monitor (not packetized) constructed with reset or reset_n delivers nothing that is on the bus while the reset is active, and what it delivers otherwise does not depend on it.", "quantifier": "every number of cycles, every reset, valid, ready and data pattern", "why_tests_cant": "every interleaving of resets and words", "anchors": ["src/cocotb_bus/monitors/avalon.py:AvalonST._monitor_recv", "src/cocotb_bus/monitors/__init__.py:BusMonitor.in_reset"]}
{"id": "C133", "title": "A wrong control bit in an XGMII frame is reported", "statement": "If one control bit of an XGMII frame is wrong, the monitor either logs an error or delivers exactly the packet that was sent; the frames after it are received as ever.", "quantifier": "every packet, every position of the bit, every number of lanes, both bus layouts, any words after the frame", "why_tests_cant": "all packets and positions", "anchors": ["src/cocotb_bus/monitors/xgmii.py:XGMII._monitor_recv", "src/cocotb_bus/monitors/xgmii.py:XGMII._add_payload"]}
{"id": "C134", "title": "The option readyLatency of packetized Avalon-ST is honoured", "statement": "With config={'readyLatency': R}, a sink whose ready latency is R takes exactly the words of each packet sent, and the monitor reports the packets such a sink takes.", "quantifier": "every R, packet, ready pattern, valid generator and stream", "why_tests_cant": "all latencies, packets and ready patterns", "anchors": ["src/cocotb_bus/drivers/avalon.py:AvalonSTPkts", "src/cocotb_bus/monitors/avalon.py:AvalonSTPkts"]}
{"id": "C135", "title": "A call that is given up does not disturb later calls", "statement": "If a testbench gives up a read or write of AvalonMaster, OPBMaster or AXI4Master (with_timeout, or the calling task is killed), the abandoned request has no further effect and later calls work as on a fresh bus.", "quantifier": "every call, every point at which it is given up, every later call and every slave behaviour", "why_tests_cant": "the point of cancellation and everything the slave does afterwards", "anchors": ["src/cocotb_bus/drivers/avalon.py:AvalonMaster", "src/cocotb_bus/drivers/opb.py:OPBMaster", "src/cocotb_bus/drivers/amba.py:AXI4Master"]}
{"id": "C136", "title": "Cycle-accurate timing of Avalon-ST transmission", "statement": "The idle cycles on valid before a word of AvalonST or AvalonSTPkts are exactly those the valid generator asks for, and one for a send with sync; the word is then on offer in every cycle until it is accepted and the next word follows at once. Without a generator no ready cycle is wasted, within a packet and between packets.", "quantifier": "every list of words or packets, every valid generator, every pattern of ready", "why_tests_cant": "all schedules of ready and all generators; a lost or repeated cycle shows only in some combinations", "anchors": ["src/cocotb_bus/drivers/avalon.py:AvalonST._driver_send", "src/cocotb_bus/drivers/avalon.py:AvalonSTPkts._send_string", "src/cocotb_bus/drivers/__init__.py:ValidatedBusDriver"]}
{"id": "C137", "title": "Cycle-accurate timing of the AXI4 master", "statement": "The address of an AXI4 write is on offer after exactly address_latency cycles (and one for sync) until it is accepted. Its data are accepted as if each value were offered data_latency cycles after the one before was accepted: without data_latency, n values to an always-ready slave take n cycles. The two channels do not wait for each other, the response is awaited from the cycle in which both are done, and the write returns after the cycle of the response. A read offers its address at once until it is accepted.", "quantifier": "every legal access, all latencies, every pattern of AWREADY, WREADY, BVALID and ARREADY", "why_tests_cant": "all latencies and all schedules of the slave; an off-by-one in one channel shows only when the other one is done earlier", "anchors": ["src/cocotb_bus/drivers/amba.py:AXI4Master.write", "src/cocotb_bus/drivers/amba.py:AXI4Master._send_write_address", "src/cocotb_bus/drivers/amba.py:AXI4Master._send_write_data", "src/cocotb_bus/drivers/amba.py:AXI4Master.read"]}
{"id": "C138", "title": "An AXI4 master on a memory is a byte array", "statement": "Whatever writes and reads a test makes one after the other through an AXI4 or AXI4-Lite master (INCR and FIXED bursts of any size, alignment and length, WRAP bursts whose lanes do not jump, any byte enables, data_latency 0 for several values, and also calls with illegal parameters), on a slave that answers OKAY and reads from what it has stored, at any speed: every access that returns has the result it has on a byte array, the memory of the slave is that array, illegal accesses raise ValueError and change nothing, and the test ends if every access is answered.", "quantifier": "every program of accesses, every initial memory, every pattern of the ready and valid signals of the slave", "why_tests_cant": "all programs and all schedules; an error of one lane shows only for some alignment, size and history", "anchors": ["src/cocotb_bus/drivers/amba.py:AXI4Master.write", "src/cocotb_bus/drivers/amba.py:AXI4Master.read", "src/cocotb_bus/drivers/amba.py:AXI4LiteMaster"]}
{"id": "C139", "title": "Back-pressure by a BitDriver", "statement": "If a BitDriver drives the ready signal of an Avalon-ST bus from a generator of (on, off) pairs while the driver sends words or packets without a valid generator: the sends return if and only if the generator asks for as many ready cycles as there are words (one more if the first send synchronises in a ready cycle); with a fixed (on, off) pair they return exactly with the on cycle of that number, having transferred the words in order.", "quantifier": "every list of words or packets, every generator, every on and off count, with and without sync", "why_tests_cant": "the exact cycle depends on every count; an off-by-one in either driver shifts it only for some ratios", "anchors": ["src/cocotb_bus/drivers/__init__.py:BitDriver._cr_twiddler", "src/cocotb_bus/drivers/avalon.py:AvalonST._driver_send", "src/cocotb_bus/drivers/avalon.py:AvalonSTPkts._send_string"]}
{"id": "C140", "title": "An AXI4 write ends whatever the order in which the slave serves", "statement": "An AXI4 slave may accept the address of a write only when it has all data, or the data only when it has the address, or mix the two. If, once AWVALID and WVALID have both been seen, it takes something on offer (or responds when nothing is on offer any more) at least once in any D cycles, the write of n values ends within sync + max(address_latency, data_latency) + 1 + (n + 2) (data_latency + D) cycles.", "quantifier": "every legal write, all latencies, every slave and every D", "why_tests_cant": "a deadlock shows only for one order of service, and there is one order for every interleaving of the channels", "anchors": ["src/cocotb_bus/drivers/amba.py:AXI4Master.write", "src/cocotb_bus/drivers/amba.py:AXI4Master._send_write_address", "src/cocotb_bus/drivers/amba.py:AXI4Master._send_write_data"]}
{"id": "C141", "title": "Sends to a receiver that answers within D cycles are bounded", "statement": "If the receiver of an Avalon-ST bus accepts at least once in any D consecutive cycles with valid high (whatever ready does otherwise; ready may wait for valid), then sending n words, or packets of n words in all, takes no more than one cycle for each send with sync, the idle cycles the valid generator asks for, and D n cycles, and the sends return.", "quantifier": "every list of words or packets, every valid generator, every receiver and every D", "why_tests_cant": "a receiver that waits for valid, and every dependence of ready on the history, cannot be enumerated; a driver that waits for ready before valid passes with most receivers", "anchors": ["src/cocotb_bus/drivers/avalon.py:AvalonST._driver_send", "src/cocotb_bus/drivers/avalon.py:AvalonST._wait_ready", "src/cocotb_bus/drivers/avalon.py:AvalonSTPkts._send_string"]}
{"id": "C142", "title": "Avalon-MM accesses to a slave that answers within D cycles are bounded", "statement": "If an Avalon-MM slave lets go of waitrequest at least once in any D consecutive cycles with a request, and gives readdatavalid at least once in any D consecutive cycles without one, any sequence of reads and writes returns; it takes no more than D + 1 cycles for each write and 2 D for each read.", "quantifier": "every sequence of accesses, every slave and every D, buses with and without waitrequest and readdatavalid", "why_tests_cant": "every dependence of the slave's answers on the history would have to be tried", "anchors": ["src/cocotb_bus/drivers/avalon.py:AvalonMaster.read", "src/cocotb_bus/drivers/avalon.py:AvalonMaster.write"]}
{"id": "C143", "title": "AXI4 reads from a slave that answers within D cycles are bounded", "statement": "If an AXI4 slave takes the address at least once in any D consecutive cycles with ARVALID, gives a beat at least once in any D consecutive cycles after the address, and marks one of any n beats as the last, a read of n beats returns or raises within D cycles for the address and D cycles for each beat (and one for sync).", "quantifier": "every legal read, every slave and every D, AXI4 and AXI4-Lite", "why_tests_cant": "every dependence of the slave's answers on the history would have to be tried", "anchors": ["src/cocotb_bus/drivers/amba.py:AXI4Master.read", "src/cocotb_bus/drivers/amba.py:AXI4LiteMaster.read"]}
{"id": "C144", "title": "An OPB access ends once the slave stops suppressing the timeout", "statement": "Whatever the slave does, an OPB read or write is over (it has returned or raised) no later than the sixteenth cycle after the last one with timeout suppression, counted with the request on the bus; only suppression can keep it waiting.", "quantifier": "every access, legal or not, with and without sync, every behaviour of the slave including undefined signal values", "why_tests_cant": "the number of wait states and the pattern of suppression are unbounded", "anchors": ["src/cocotb_bus/drivers/opb.py:OPBMaster.read", "src/cocotb_bus/drivers/opb.py:OPBMaster.write"]}
{"id": "C145", "title": "A bus value built on cocotb 1.x is the one built on cocotb 2.x", "statement": "The bus word the library builds from an int, a string of bits or bytes does not depend on the version of cocotb it runs on: the two implementations give the same bits, or both refuse the value.", "quantifier": "every int, string of bits and byte string, every number of bits from one up, both byte orders", "why_tests_cant": "the arguments and the widths are unbounded, and a test run has one version of cocotb", "anchors": ["src/cocotb_bus/_compat.py:create_binary"]}
{"id": "C146", "title": "AXI accesses of several tasks all end", "statement": "If the slave accepts what is offered within D cycles and, while it owes an answer, gives one within E cycles, then every read and every write that any number of tasks make on one AXI master returns or raises, within a number of cycles that is linear in the number of calls.", "quantifier": "every number of tasks, times of calls, burst lengths, latencies, D, E and schedules of such a slave", "why_tests_cant": "the tasks, the schedules and the bounds of the slave are unbounded, and a deadlock or starvation shows only under some interleaving", "anchors": ["src/cocotb_bus/drivers/amba.py:AXI4Master.read", "src/cocotb_bus/drivers/amba.py:AXI4Master.write", "src/cocotb_bus/drivers/amba.py:AXI4Master._send_write_address", "src/cocotb_bus/drivers/amba.py:AXI4Master._send_write_data"]}
{"id": "C147", "title": "Packets on the XGMII bus are spaced as 802.3 demands", "statement": "Between the terminate character of a packet sent by the XGMII driver and the start of the next there are at least 12 characters, the terminate included (the inter-packet gap of IEEE 802.3, 96 bit times), and a packet takes as many bus words as its characters need plus one of idle.", "quantifier": "every sequence of packets, every number of lanes, both layouts, every wait before each packet", "why_tests_cant": "the gap depends on the length of each packet modulo the number of lanes and on whether the next one is already queued", "anchors": ["src/cocotb_bus/drivers/xgmii.py:XGMII._driver_send", "src/cocotb_bus/drivers/xgmii.py:XGMII.terminate", "src/cocotb_bus/drivers/xgmii.py:XGMII.idle"]}
{"id": "C148", "title": "An XGMII monitor receives the traffic of any transmitter", "statement": "On a bus whose lanes are a multiple of four, a monitor delivers every correct frame of at least 64 bytes, in order and without logging an error, whichever column (group of four lanes) the frame starts in, if five or more characters, the terminate included, lie between two frames (what IEEE 802.3 clause 46 allows at a receiver).", "quantifier": "every sequence of frames, every idle time before each, every column, every number of lanes and both layouts", "why_tests_cant": "where a frame starts depends on the lengths and gaps of all frames before it", "anchors": ["src/cocotb_bus/monitors/xgmii.py:XGMII._monitor_recv", "src/cocotb_bus/monitors/xgmii.py:XGMII._add_payload", "src/cocotb_bus/monitors/xgmii.py:XGMII._get_bytes"]}
{"id": "C149", "title": "An XGMII monitor delivers a packet in the cycle of its terminate character", "statement": "Of the traffic of any transmitter, the packets an XGMII monitor hands to its callbacks at a clock edge are exactly those whose terminate character is in the word sampled at that edge: none is held back until later words arrive and none is delivered early.", "quantifier": "every sequence of frames of at least 64 bytes five or more characters apart, every idle time, number of lanes and layout, every point in time", "why_tests_cant": "the word in which a frame ends depends on all lengths and gaps before it", "anchors": ["src/cocotb_bus/monitors/xgmii.py:XGMII._monitor_recv", "src/cocotb_bus/monitors/xgmii.py:XGMII._add_payload"]}
{"id": "C150", "title": "An XGMII monitor may be created at any time", "statement": "An XGMII monitor that is created while traffic is on the bus, also in the middle of a frame, logs no error and delivers exactly the frames that start afterwards.", "quantifier": "every sequence of frames of at least 64 bytes five or more characters apart, every number of lanes, every word before which the monitor is created and every time after it", "why_tests_cant": "the word at which a monitor starts to look can be any word of any frame", "anchors": ["src/cocotb_bus/monitors/xgmii.py:XGMII._monitor_recv", "src/cocotb_bus/monitors/xgmii.py:XGMII.__init__"]}
{"id": "C151", "title": "A packet monitor may be created at any time", "statement": "An Avalon-ST packet monitor that is created while packets are transferred, also in the middle of one, raises nothing and delivers exactly the packets that start afterwards.", "quantifier": "every sequence of packets with any channels, gaps, resets and back-pressure, every bus configuration and every cycle after which the monitor is created", "why_tests_cant": "the cycle in which a monitor starts to look can be any cycle of any packet", "anchors": ["src/cocotb_bus/monitors/avalon.py:AvalonSTPkts._monitor_recv", "src/cocotb_bus/monitors/avalon.py:AvalonSTPkts.__init__"]}
{"id": "C152", "title": "A reset abandons the packet in progress", "statement": "When the monitor's reset cuts off a packet, an Avalon-ST packet monitor drops the words it has of it and delivers every packet transferred after the reset.", "quantifier": "every traffic before and after the reset, every length of the reset, every bus configuration and every word after which the reset comes", "why_tests_cant": "the reset can come after any word of any packet", "anchors": ["src/cocotb_bus/monitors/avalon.py:AvalonSTPkts._monitor_recv", "src/cocotb_bus/monitors/__init__.py:BusMonitor.in_reset"]}
{"id": "C153", "title": "The channel attribute is that of the packet delivered last", "statement": "Each callback of an Avalon-ST packet monitor finds in the monitor's attribute channel the channel of the packet it is called with (None on a bus without channel), whether or not report_channel is set; between two packets, inside a packet and after an exception of the monitor it is that of the last packet delivered, and before the first packet the attribute does not exist.", "quantifier": "every traffic, with or without protocol errors, every bus configuration and every time", "why_tests_cant": "the attribute can be read at any time of any traffic, also inside a packet on another channel", "anchors": ["src/cocotb_bus/monitors/avalon.py:AvalonSTPkts._monitor_recv", "src/cocotb_bus/monitors/avalon.py:AvalonSTPkts.__init__"]}
{"id": "C154", "title": "Packets flagged with error are not delivered as good ones", "statement": "On a packetized Avalon-ST bus with an error signal, the driver sends every word with error 0, and the monitor does not deliver a packet with an error flagged in one of its words as if it were good.", "quantifier": "every packet, configuration, back-pressure and state of the bus before the send; every traffic seen by the monitor", "why_tests_cant": "any word of any packet can carry the error", "anchors": ["src/cocotb_bus/drivers/avalon.py:AvalonSTPkts._send_string", "src/cocotb_bus/monitors/avalon.py:AvalonSTPkts._monitor_recv"]}
{"id": "C155", "title": "report_channel changes only the form of what is delivered", "statement": "On the same traffic, Avalon-ST packet monitors with and without report_channel deliver the same bytes in the same order and raise the same exceptions in the same cycle; the channels the one delivers are those the callbacks of the other find in its attribute. AvalonSTPktsWithChannel can be constructed exactly on the buses with a channel on which AvalonSTPkts can, and delivers every packet with its channel; it refuses an argument report_channel of its own.", "quantifier": "every traffic, with or without protocol errors, and every bus configuration", "why_tests_cant": "two monitors could disagree on any traffic", "anchors": ["src/cocotb_bus/monitors/avalon.py:AvalonSTPkts._monitor_recv", "src/cocotb_bus/monitors/avalon.py:AvalonSTPkts.__init__", "src/cocotb_bus/monitors/avalon.py:AvalonSTPktsWithChannel.__init__"]}
