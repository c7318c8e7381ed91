{
 "C05": {
  "note": "C05_hierdict_contract_alone_refuted: the documented handler contract alone is not enough; the theorem for the default handlers is full."
 },
 "C07": {
  "note": "Full round trip proved; the two _refuted theorems record that isValid accepts spellings FromString does not preserve and rejects/accepts others."
 },
 "C08": {
  "note": "Chains of prefix-shaped blocks reach *.*.*.*; C08_any_chain_reaches_root_refuted shows other blocks end elsewhere."
 },
 "C11": {
  "note": "Exact on every destination; _refuted theorems record the cases where blocks are missed."
 },
 "C13": {
  "note": "peek(0) returns everything (C13_peek_zero_refuted); all other calls proved."
 },
 "C14": {
  "status": "proved",
  "note": "Refinement of the buffer/position lists by a chunk layout (MincopySpec.v) for every history; the in-order property itself is false of the code and refuted, the exact behaviour is proved."
 },
 "C15": {
  "note": "Proved for the stated packets. Refuted parts recorded: any non-ASCII string (C15_nonascii_refuted), 65536-character strings raise struct.error rather than PacketEncodingError, and a field longer than a preceding nested packet cannot be decoded (C15_nested_then_longer_refuted). Float fields are not modelled."
 },
 "C16": {
  "note": "Proved for streams of packets with garbage; for bytes that are not packets the outcome depends on the segmentation (C16_segmentation_of_foreign_bytes_refuted)."
 },
 "C18": {
  "note": "Deserializer part proved; Packet.Deserialize on a prefix loops for ever (C18_deserialize_of_prefix_hangs)."
 },
 "C19": {
  "note": "Proved; the former claim that the decoder never reads past the declared length is false (C19_stays_within_declared_length_refuted)."
 },
 "C21": {
  "note": "Encoder side proved as an equivalence; the decoder does not check required fields (C21_decoder_accepts_unset_required_refuted)."
 },
 "C22": {
  "note": "Exact characterisation proved for every declaration, value and history. Refuted parts recorded: a rejected value is nevertheless stored (proved in general), INT fields have no lower bound and accept values above the signed range, an uncloned field accepts 2**n, re-declaring a width keeps the old maximum."
 },
 "C23": {
  "note": "Equivalence with a plain list proved for acceptable values; refuted parts recorded: a failing append leaves an element behind, assigning UNSET does not clear, assigning an equal list keeps the old objects. List fields of lists are not modelled."
 },
 "C24": {
  "note": "Proved for registered pairs, unknown identifiers and most-recent lookups; refuted parts recorded: an absent version of a known identifier raises NameError (proved in general), so a second version of an identifier cannot be defined by a class statement; negative versions break MOST_RECENT; an explicit silo name raises UnboundLocalError."
 },
 "C25": {
  "note": "Also proved, as limits of the code: payload bytes are not covered by any checksum; the header for size 512 and 65537 have the same checksum; a refused header starting with the magic makes no progress; a read can cross the end of the frame into the following bytes; closing an unwritten frame raises struct.error."
 },
 "C26": {
  "note": "Any event loop that runs a handle not before its time and not after cancellation (asyncio). Times are integers in the model. On TestLoopEx call_later returns None, so cancel and expire raise AttributeError there; noted, not modelled as a combined system."
 },
 "C27": {
  "note": "TestLoopEx offers no cancellation (call_later returns None). Due times of callbacks scheduled while advancing count from the clock after the jump (C27_periodic_runs_once)."
 },
 "C28": {
  "note": "One decoded packet per call is the full statement; C28_batches relates calls with several packets to it and C28_refuted_* show the three ways in which the unqualified claim fails. fragId is a parameter (random.getrandbits).",
  "status": "proved"
 },
 "C29": {
  "note": "Links are registered in asyncio's contract (data only while connected). C29_refuted_poison_delays: a destination with a negative part delays what follows it.",
  "status": "proved"
 },
 "C30": {
  "note": "Random draws are universally quantified parameters.",
  "status": "proved"
 },
 "C34": {
  "note": "Refuted in part: connections whose reverse connection is still being opened survive the close (C34_pending_leaks, C34_failed_spawn_leaks); the statement excludes exactly those."
 },
 "C31": {
  "note": "Port exhaustion hangs the process (C31_connect_total); a refused listen keeps its connection id (C31_refused_listen_keeps_id)."
 },
 "C35": {
  "note": "Also shown: losing the old link after a reconnect disconnects the VNIC from the new one (C35_reconnect_refuted); setPromiscuousLevel raises while reconnecting (C35_raises_refuted)."
 },
 "C39": {
  "note": "Finding: a setDirectConnections call naming an unknown location changes the direct connections of the named one (up to the unknown entry) but leaves the routes un-updated (Example C39_failed_call_leaves_routes_behind). The transports of the direct links are modelled in WanNetModel.v.",
  "status": "proved"
 },
 "C36": {
  "note": "Application factories and completeCallback are taken not to raise. Refuted: the late answer to a timed-out request raises in data_received and holds back the packets behind it; a timed-out connect is still connected; a second spawn for a connect is built as server side."
 },
 "C37": {
  "note": "Stack and application code is taken not to raise. Refuted: a connection lost before its notification is still built on later; a reused port's notification is dropped with the old connection; connection ids of two VNICs collide."
 },
 "C38": {
  "note": "Refuted: a stack factory nested in another contributes only its lowest protocol."
 },
 "C47": {
  "note": "Sharing one extra dictionary between two transports is not modelled."
 },
 "C42": {
  "note": "LineModel.v: full state machine, subclass methods as an arbitrary function returning actions; str/bytes mismatch of CLIShell.delimiter not modelled"
 },
 "C40": {
  "note": "Full. Refuted variants recorded: an exception without a message is reported as success, an error text sent in a request comes back with a successful answer, and requests after a refused one in the same data still run."
 },
 "C48": {
  "note": "Full under the stated ordering; C48_answered_return_any_order_refuted: with answers in another order the single notify wakes the wrong query and the answered one waits forever; C48_fresh_answer_refuted: a reused id returns the old answer."
 },
 "C43": {
  "note": "Full, AES and SHA1-HMAC being arbitrary functions with the stated laws. Refuted variants: an object cannot decrypt after it encrypted (decrypt finalizes the encrypter), the bare cipher ignores a trailing partial block, a failed RSA encrypt uses the object up."
 },
 "C49": {
  "note": "Full. C49_self_signature_checked_refuted: the last certificate's own signature is never looked at, so a single certificate is always accepted."
 },
 "C41": {
  "note": "Lookup for every table whose routes are blocks; ownership. Refuted: invalid routes accepted, default can be taken.",
  "status": "proved"
 },
 "C50": {
  "note": "Refinement of every history to an abstract network. Refuted parts (route removal not saved, capital letters) are theorems.",
  "status": "proved"
 },
 "C51": {
  "note": "Invariant over the state machine; processes and run files as an oracle per launch and per kill. The run files are taken to appear and vanish together. Refuted parts are theorems."
 },
 "C52": {
  "note": "Invariant relating the tables of all switches and the link ends to a plan (WanNetSpec.v); counting argument for the copies. The refuted parts are theorems."
 },
 "C53": {
  "note": "Simulation of the replaced-method machinery by a specification with no replaced methods; second simulation for non-interference. Excluded (marked Misuse in ObserveSpec.v, and refuted by witness where wrong): a listener that changes the audience of the protocol being reported, connecting an already connected session or transport.",
  "status": "proved"
 },
 "C54": {
  "note": "asyncio's Lock and Condition (CPython 3.6 locks.py) are modelled explicitly, including the lock; predicates are taken to be functions of the application state.",
  "status": "proved"
 },
 "C55": {
  "note": "Built on ClientModel (C41) and CallbackModel; the choice of the VNIC and of its TCP location is not part of it, sleeps and timeouts may end at any time. The control connection is taken not to be lost.",
  "status": "proved"
 },
 "C56": {
  "note": "A float is a bit pattern; numbers are integers in units of 2^-1074, so no axioms of the reals. struct's conversions are modelled as CPython's on IEEE hardware. float() of strings and bytes is a parameter.",
  "status": "proved"
 },
 "C57": {
  "note": "A module's body is its sequence of calls of the service. importlib's sys.modules and _RELOADING are modelled; finding files on sys.path is not. The history theorem is for modules that only set connectors and fail; the others are for all modules (without sys.exit() where said).",
  "status": "proved"
 },
 "C58": {
  "note": "Callbacks, handlers, futures and files are functions of the log of everything that happened. shlex.split is modelled. Not modelled: textwrap (a parameter), text of tracebacks, callbacks that reconfigure the shell.",
  "status": "proved"
 },
 "C59": {
  "note": "The flags are read and written in the code's order under its locks; each locked region is one step. The loop is running (shouldQuit's is_running() is true); KeyboardInterrupt in input() is not modelled.",
  "status": "proved"
 },
 "C60": {
  "note": "Not modelled: formatting, creation and rotation of the log files (each preset call gets a new handler or raises), propagate = False, logging.disable; ConfigureArgParser (it always raises TypeError: EnablePresetLogging takes one argument).",
  "status": "proved"
 },
 "C61": {
  "note": "configparser of Python 3.11, read and written as text in IniModel (checked against the library on 600 generated files); str.lower on ASCII letters only, a lossless encoding, no interpolation.",
  "status": "proved"
 },
 "C62": {
  "note": "All of Configure.py but Initialize, with configparser's interpolation, section assignment and proxies (checked against Python 3.11 on 500 generated cases). Paths compared as written (no links), making a directory never fails, no directory has a configuration file's name, a file written now has the clock's time; a handle whose last reload raised is not followed further. `with` never saves (its __exit__ takes no arguments).",
  "status": "proved"
 },
 "C63": {
  "note": "Protocol objects are true, close's arguments dropped; programs that never end have no result. The loop may run any due job of least time; `fifo` (earlier call first) is assumed only where stated.",
  "status": "proved"
 },
 "C64": {
  "note": "The addresses announced on a link are C35's. Nothing cancels an attempt; a listener's exception ends the notification.",
  "status": "proved"
 },
 "C65": {
  "status": "proved"
 },
 "C66": {
  "note": "The five settings verbs (log levels, loss rate) are arbitrary functions on their own state; texts of int()'s and the argument count's exceptions shortened; a connection is listed once it has its transport.",
  "status": "proved"
 },
 "C67": {
  "note": "The three log-level verbs are arbitrary functions; float() and str(float) are parameters; one packet per event (FramedProtocolAdapter hands them over one by one); the amount of delay is left out: a waiting write may go at any later moment.",
  "status": "proved"
 },
 "C68": {
  "note": "Composes the packet model of C15-C17 with the protocols; the transport is a FIFO byte stream in both directions and goes on delivering after close(). EchoPacket has no registered subclass. Printing is an action, the text of the report for long equal data is given by its ingredients.",
  "status": "proved"
 },
 "C69": {
  "note": "Composes the models of C35 (links and level), C40 (management server) and C60 (logging). The order of links of the launched process is a hypothesis here (phase_after), justified by C64. Texts of two built-in exceptions are shortened.",
  "status": "proved"
 },
 "C70": {
  "note": "Composes the models of C31-C34 (configuration), C62 (loading and status) and C55 (connectors). The configuration file is fixed while the program runs; the files a process leaves and what its process does are arbitrary at each moment (VEnv), one reading per call. Names are assumed plain (no reserved words): see plain_command.",
  "status": "proved"
 },
 "C71": {
  "note": "sha1 is an arbitrary function. Not modelled: host and peer names in the record, a third connection, waitClose of the protocols (never called), the transmit delay (timers fire at any moment), the command line. The stack between the two is a reliable stream (C23 to C30). Sizes below 2^53.",
  "status": "proved"
 },
 "C72": {
  "note": "The pid files hold numbers; contents of the files are fixed while the command runs; the path of the configuration is a parameter; plain names (as in C51); commands that stop do stop (as in C70).",
  "status": "proved"
 },
 "C73": {
  "note": "The % of str and LogRecord.getMessage are modelled from Python's library, for %s, %(key)s and %%; conversions with flags or widths and other conversions mean nothing in the model. Arguments and what converters return are texts. What the formatter puts around the message (time, logger, level) is not modelled.",
  "status": "proved"
 },
 "C74": {
  "note": "The generator is used only through the wrapper and does not catch GeneratorExit; send() and throw() are not modelled.",
  "status": "proved"
 }
}