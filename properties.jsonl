{"id": "C01", "title": "Bijection: the two directions are always exact inverses", "statement": "After any sequence of item assignments and deletions on a Bijection b (through b or through b.inverseMutable()), b[k]==v holds if and only if b.inverse()[v]==k, no key and no value occurs twice, and len(b)==len(b.inverse()).", "quantifier": "every finite history of set/delete operations over arbitrary hashable keys and values, in either direction, including failing deletes", "why_tests_cant": "the corruption pattern is a stale reverse entry left by some interleaving of overwrites; only an invariant over all histories excludes it", "anchors": ["src/playground/common/datastructures/Bijection.py: Bijection.__setitem__, __delitem__, inverse, inverseMutable"]}
{"id": "C02", "title": "Bijection: assignment replaces exactly the conflicting pairs", "statement": "b[k]=v makes b[k]==v, removes any other key that mapped to v and any other value of k, and leaves every other pair unchanged; del b[k] removes exactly the pair of k, and raises KeyError leaving b unchanged if k is absent.", "quantifier": "every reachable Bijection, every key and value", "why_tests_cant": "frame conditions (nothing else changes) range over all other keys", "anchors": ["src/playground/common/datastructures/Bijection.py: Bijection.__setitem__, __delitem__"]}
{"id": "C03", "title": "Bijection: views share state and immutable views cannot change it", "statement": "Writing through b.inverseMutable() has the effect of the mirrored write through b, b.inverse() reads the same pairs reversed, inverse().inverse() reads b's own pairs, and set/delete/inverseMutable on an immutable view raise TypeError and leave every view unchanged.", "quantifier": "every history of operations issued through any of the views of one Bijection", "why_tests_cant": "aliasing between four view objects must be right for every interleaving of operations on them", "anchors": ["src/playground/common/datastructures/Bijection.py: Bijection.__init__, mutable, inverse, inverseMutable"]}
{"id": "C04", "title": "HierarchicalDictionary behaves as a flat map over dotted keys", "statement": "For every history of assignments and deletions, d[key] returns the value most recently assigned to exactly that key and not deleted since, and raises KeyError otherwise; deleting an absent key raises KeyError and changes no lookup; keys that are prefixes of each other do not interfere.", "quantifier": "every history of set/delete with arbitrary string keys (including empty parts and prefixes of other keys)", "why_tests_cant": "nested sub-dictionaries are created and pruned; unit tests touch three keys", "anchors": ["src/playground/common/datastructures/HierarchicalDictionary.py: HierarchicalDictionary.storeByKeyParts, lookupByKeyParts, deleteByKeyParts, DEFAULT_KEY_HANDLER"]}
{"id": "C05", "title": "HierarchicalDictionary: iteration yields each stored key once and len counts them", "statement": "Iterating a HierarchicalDictionary yields exactly the keys for which lookup succeeds, each exactly once, in their original dotted spelling, and len(d) is the number of keys yielded.", "quantifier": "every dictionary reachable by any history of set/delete", "why_tests_cant": "requires join(split(key))==key and no duplication across levels for every tree shape", "anchors": ["src/playground/common/datastructures/HierarchicalDictionary.py: HierarchicalDictionary.iterKeys, __len__, __iter__"]}
{"id": "C06", "title": "Version strings round-trip and equality is by both numbers", "statement": "Version.FromString(str(v))==v for every version, str is injective on versions, and a string without exactly one dot, or with a non-integer part, is rejected with AttributeError.", "quantifier": "every pair of integers (negative included), every input string", "why_tests_cant": "infinite domain of integers and strings", "anchors": ["src/playground/common/Version.py: Version.FromString, __str__, __eq__"]}
{"id": "C07", "title": "Address strings round-trip", "statement": "For every PlaygroundAddress and PlaygroundAddressBlock a, FromString(a.toString()) succeeds and equals a; two addresses are equal exactly when their strings are; FromString never yields an address with a negative part.", "quantifier": "all addresses with parts any non-negative integer or '*', and all input strings", "why_tests_cant": "infinite domain; equality is defined on parts but hashing on strings", "anchors": ["src/playground/network/common/PlaygroundAddress.py: PlaygroundAddressType.FromString, IsValidAddressString, toString, __eq__, __hash__"]}
{"id": "C08", "title": "Parent block chains climb to the root in at most four steps", "statement": "Taking the parent block of a prefix-shaped address block (a number of fixed components followed by wildcards) repeatedly reaches *.*.*.* in at most four steps and then stops; the chain of any other block still ends after at most four steps.", "quantifier": "every address block", "why_tests_cant": "termination and containment must hold for every block, including ones with a '*' in the middle", "anchors": ["src/playground/network/common/PlaygroundAddress.py: PlaygroundAddressBlock.getParentBlock, isParentBlock"]}
{"id": "C09", "title": "isParentBlock is containment", "statement": "block.isParentBlock(addr) is True exactly when every non-wildcard part of block equals the corresponding part of addr; it is reflexive and transitive, and spawnAddress always yields a valid address that the block is a parent of.", "quantifier": "all blocks and addresses and every outcome of the random generator", "why_tests_cant": "quantifies over random draws and over all triples for transitivity", "anchors": ["src/playground/network/common/PlaygroundAddress.py: PlaygroundAddressBlock.isParentBlock, spawnAddress"]}
{"id": "C10", "title": "Switch: a link has at most one address and the two tables always agree", "statement": "After any sequence of registerLink/unregisterLink calls, every link is listed under at most one address, it is listed there exactly if it is registered, and registering an invalid address string changes nothing.", "quantifier": "every history of register/unregister over any links and any strings", "why_tests_cant": "two mutable tables must remain consistent across arbitrary re-registrations", "anchors": ["src/playground/network/devices/switch/Switch.py: Switch.registerLink, unregisterLink"]}
{"id": "C11", "title": "Switch: packets go out on exactly the links of the destination and its enclosing blocks", "statement": "getOutboundLinks(\u2026, destination, \u2026) returns exactly the links whose currently registered address string is the canonical string of the destination or of one of the blocks a.b.c.*, a.b.*.*, a.*.*.*, *.*.*.* enclosing it; for an invalid destination string it returns no links.", "quantifier": "every history of registrations and every destination string", "why_tests_cant": "set equality over all registrations and all destinations", "anchors": ["src/playground/network/devices/switch/Switch.py: Switch.getOutboundLinks"]}
{"id": "C12", "title": "PortKey inversion is an involution compatible with equality", "statement": "k.inverseKey().inverseKey()==k; k1==k2 exactly if their inverses are equal; a key equals its own inverse exactly if both endpoints coincide; equal keys have equal hashed tuples.", "quantifier": "all port keys", "why_tests_cant": "infinite domain of endpoints", "anchors": ["src/playground/network/common/PortKey.py: PortKey.inverseKey, __eq__, __hash__"]}
{"id": "C13", "title": "UpdateableBytesIO is a FIFO of bytes", "statement": "Whatever the interleaving of update(), read(n), peek(n) with n != 0 and available(), the bytes returned by read() are exactly the bytes passed to update(), in order, each once; peek(n) returns what read(n) would return and changes nothing; available() is the number of bytes not yet read.", "quantifier": "every interleaving of updates, reads and peeks with any sizes", "why_tests_cant": "depends on how read positions and appended writes interleave", "anchors": ["src/playground/common/io/HighPerformanceStreamIO.py: UpdateableBytesIO"]}
{"id": "C14", "title": "What MinimumCopyingStreamIO returns", "statement": "For every history of update, read, peek, available, seek, tell, close and memsize calls, each call returns exactly what a simple description says: chunks laid out one after the other and a position. read(n)/peek(n) with a byte at the position give exactly min(n, available) bytes (all for n = -1 or 0), and they are the bytes of the stream in order if n = -1 or the request stays within the update() chunk the position is in; without seek and close, available() is the bytes put minus the bytes got; a seekable stream gives every byte put in again after seek. (Refuted: a bounded read that goes beyond the current chunk repeats bytes from the first held chunk instead of going on; read(0) consumes everything; seek(k, SEEK_CUR) moves by 1 whatever k; memsize() raises whenever something is held; after close() with unread bytes updates are accepted but no read ever returns a byte.)", "quantifier": "every initial buffer, seekable or not, every history of calls with sizes >= -1, every segmentation of the stream into updates and reads", "why_tests_cant": "only a few boundary alignments of reads against internal buffers are covered by tests", "anchors": ["src/playground/common/io/HighPerformanceStreamIO.py: MinimumCopyingStreamIO"]}
{"id": "C15", "title": "Packets round-trip through the standard encoder", "statement": "For every packet type and every packet of it whose fields hold encodable values (integers within the field width, ASCII strings shorter than 65536, buffers, bools, lists of up to 65535 elements, nested fields and packets, unset optional fields), in which no string, buffer or class identifier is longer than a packet nested in it, __serialize__ succeeds, Deserialize of the bytes yields a packet equal in every field, and exactly those bytes are consumed; no encoding is a proper prefix of another.", "quantifier": "all field schemas (any nesting, any tags) and all values of them", "why_tests_cant": "infinitely many schemas and values; nested lists and packets", "anchors": ["src/playground/network/packet/encoders/PlaygroundStandardPacketEncoder.py: PacketEncoder, PacketFieldsEncoder, ListEncoder, StringEncoder, BufferEncoder, UintEncoder, IntEncoder, BoolEncoder", "src/playground/network/packet/PacketType.py: PacketType.__serialize__, Deserialize"]}
{"id": "C16", "title": "Incremental decoding does not depend on how the bytes are split", "statement": "For a stream of serialized packets, possibly with garbage between them, a Deserializer fed the same bytes in any segmentation, with nextPackets() called at any points, delivers the same packets.", "quantifier": "every byte string of valid packets and every segmentation of it into update() chunks", "why_tests_cant": "exponentially many segmentations; state is a suspended generator", "anchors": ["src/playground/network/packet/PacketType.py: PacketType.Deserializer.update, nextPackets", "src/playground/network/packet/encoders/PlaygroundStandardPacketEncoder.py: EncoderStreamAdapter.unpackIterator, PacketEncoder.decodeIterator"]}
{"id": "C17", "title": "Concatenated packets decode to the list of packets", "statement": "Feeding the Deserializer the concatenation of the serializations of packets p1\u2026pn yields p1\u2026pn in order, no errors, and an empty remainder.", "quantifier": "every finite list of packets of any registered types", "why_tests_cant": "unbounded list; depends on the remainder carried from one packet to the next", "anchors": ["src/playground/network/packet/PacketType.py: PacketType.Deserializer"]}
{"id": "C18", "title": "A proper prefix of a packet never yields a packet", "statement": "While only a proper prefix of a serialized packet has been received, the Deserializer yields no packet and no error, and when the rest arrives the packet is delivered.", "quantifier": "every packet and every proper prefix", "why_tests_cant": "every cut point of every packet", "anchors": ["src/playground/network/packet/PacketType.py: PacketType.Deserializer.nextPackets", "src/playground/network/packet/encoders/PlaygroundStandardPacketEncoder.py: EncoderStreamAdapter.unpackIterator"]}
{"id": "C19", "title": "Deserializer resynchronises after garbage", "statement": "The packet decoder skips leading bytes that are not a length header (length followed by its bitwise complement) one at a time, so packets preceded by garbage containing no such header are still decoded without an error being reported, and after a reported error every following packet is delivered.", "quantifier": "every garbage prefix and every packet", "why_tests_cant": "arbitrary garbage", "anchors": ["src/playground/network/packet/encoders/PlaygroundStandardPacketEncoder.py: PacketEncoder.decodeIterator"]}
{"id": "C20", "title": "Field tags are unique and stable", "statement": "The tag assignment of a packet definition is injective, explicit tags are honoured, automatic tags never collide with another field's tag, and encoder and decoder compute the same assignment.", "quantifier": "every list of fields with any mixture of explicit and automatic tags", "why_tests_cant": "arbitrary interleavings of explicit and automatic tags", "anchors": ["src/playground/network/packet/encoders/PlaygroundStandardPacketEncoder.py: PacketFieldsEncoder._processFields"]}
{"id": "C21", "title": "Encoding reports unset required fields and omits unset optional ones", "statement": "Encoding a packet whose set fields are encodable fails with PacketEncodingError exactly when some non-optional field is unset (at any nesting level); an unset optional field contributes no bytes and decodes as unset.", "quantifier": "every schema and every subset of set fields", "why_tests_cant": "all subsets at all nesting levels", "anchors": ["src/playground/network/packet/encoders/PlaygroundStandardPacketEncoder.py: PacketFieldsEncoder.encode"]}
{"id": "C22", "title": "Field assignment enforces declared constraints", "statement": "Assigning a Python value to a field of a packet succeeds exactly if the field's declaration accepts it (integers within the declared MaxValue/MinValue/Bits limits, bytes for buffers, instances of the declared class), the field then reads as the converted value and no other field changes; otherwise ValueError is raised. The same holds for initial values given to the constructor.", "quantifier": "every declaration, every value, every history of assignments including failed ones", "why_tests_cant": "infinite domain and history", "anchors": ["src/playground/network/packet/fieldtypes/PacketFieldType.py: PacketFieldType.setData", "src/playground/network/packet/fieldtypes/attributes/scalar_validators.py: Bits, MaxValue", "src/playground/network/packet/fieldtypes/Uint.py: Uint"]}
{"id": "C23", "title": "List fields keep order and identity of elements", "statement": "Once a list field has been assigned, after any history of append, pop, indexed assignment and list assignment with acceptable element values, every call returns what the same call on a plain list returns and the contents (iteration, len, indexing, membership, comparison) are those of the plain list.", "quantifier": "every history of list operations", "why_tests_cant": "unbounded histories", "anchors": ["src/playground/network/packet/fieldtypes/ListFieldType.py: ListFieldType"]}
{"id": "C24", "title": "Packet-definition lookup returns the registered class or reports absence", "statement": "getDefinition(id, version) returns the class last registered for exactly that pair; with no version it returns the class with the greatest major and then minor version registered; unregistering an identifier removes all its versions; unknown identifiers give None; a class statement registers the class in the current silo under its identifier and version or raises without changing anything.", "quantifier": "every history of register/unregister of any identifiers and versions", "why_tests_cant": "maxima are maintained incrementally over arbitrary histories", "anchors": ["src/playground/network/packet/PacketDefinitionRegistration.py: _PacketDefinitionRegistration"]}
{"id": "C25", "title": "Framed data round-trips and corrupted headers and trailers are detected", "statement": "Opening a stream as a frame succeeds exactly when fewer than 12 bytes are there, or a well-formed header is, with its matching trailer if that part has arrived; otherwise a FramingError is raised. Data written through the framing stream in any pieces and closed becomes one frame, and reading it back in any pieces, with any bytes before and after, yields the data, closing positions the stream right after the frame. A header with one byte altered and a complete frame with an altered trailer are refused, and the stream is then at the next header magic. Not protected: the data itself, and multi-byte header changes that keep the checksum.", "quantifier": "every payload, every corruption of header/trailer bytes", "why_tests_cant": "all payload contents, including ones containing the magic", "anchors": ["src/playground/network/packet/encoders/PacketFramingStream.py: PacketFramingStreamAdapter"]}
{"id": "C26", "title": "Timer fires its callback at most once per start and never early", "statement": "For every schedule of start/extend/cancel/expire calls and loop steps: the callback runs at most once per start (plus once per explicit expire); a timer started once does not call it before the delay in force at the start has elapsed; after extend(e) it is not called for at least e; after cancel it is not called until started again (starting only an unarmed timer). When the running delay is up and an extension is pending, the timer waits for the extension counted from that moment. Limits of the code proved alongside: starting a running timer fires at once and again, a fired timer restarts without delay, extensions replace one another.", "quantifier": "every interleaving of timer calls and clock advances", "why_tests_cant": "schedules are unbounded", "anchors": ["src/playground/common/Timer.py: Timer", "src/playground/asyncio_lib/testing/TestLoopEx.py: TestLoopEx"]}
{"id": "C27", "title": "Test loop runs due callbacks in time order", "statement": "Advancing the test loop's clock runs exactly the callbacks that are due, each once, in order of due time and, for equal times, in order of scheduling, including callbacks scheduled by callbacks, and never one that is not due; none that is due remains.", "quantifier": "every history of call_later/set clock/advance, callbacks that schedule further ones", "why_tests_cant": "unbounded schedules", "anchors": ["src/playground/asyncio_lib/testing/TestLoopEx.py: TestLoopEx"]}
{"id": "C28", "title": "Fragmented wire packets reassemble to the written data", "statement": "Data of any length written to a switch transmission transport is cut into fragments none of which exceeds the maximum, and delivering the fragments in any order, with duplicates and with other traffic in between, to the receiver yields exactly the original data once, when the last missing fragment arrives; a message with a fragment missing is never delivered. (Not: a complete second copy of the fragments is delivered again; two senders that draw the same id corrupt each other; in one read, a fragment that completes nothing repeats the preceding delivery under its own addresses.)", "quantifier": "every data length, every permutation and duplication of fragments", "why_tests_cant": "factorially many orders", "anchors": ["src/playground/network/protocols/switching.py: PlaygroundSwitchTxProtocol.write, FragStorage, _data_received"]}
{"id": "C29", "title": "Switch dispatch delivers each wire packet exactly to the links its destination should reach", "statement": "For each wire packet received on any link the switch writes that packet once to every link its destination should reach under the registrations of that moment (including the sender, if so registered) and to no other; an announce packet (re)registers the link; packets of a link are handled in order, each once, none left behind unless a destination with a negative part was received on it (that packet makes the ones behind it wait for the next read); a lost link receives nothing until it announces again.", "quantifier": "every sequence of packets over every set of links", "why_tests_cant": "unbounded histories of link set changes", "anchors": ["src/playground/network/protocols/switching.py: PlaygroundSwitchRxProtocol"]}
{"id": "C30", "title": "Unreliable link corrupts at the configured rate and preserves length", "statement": "With settings that do not change mid-stream, the error transport never fails and passes on exactly the bytes written, complemented exactly at the positions drawn, so every write keeps its length and every completed window beyond the horizon has as many altered bytes as different positions were drawn, at most the configured number. The delay transport passes every write on at most once and unchanged, in any order. (Not: after a change of settings a write may grow or raise; on an unreliable switch each announcement adds another error transport.)", "quantifier": "every sequence of writes and every outcome of the random choices", "why_tests_cant": "quantifies over randomness and segmentations", "anchors": ["src/playground/network/devices/switch/UnreliableSwitch.py: ConstantErrorTransport"]}
{"id": "C31", "title": "VNIC never hands out a port in use", "statement": "An outbound socket request always gets a source port in 2000..65534 that no open inbound or outbound socket uses (if every such port is taken the request never returns), an inbound request gets its port exactly when no open socket uses it and otherwise changes neither ports nor connections, and the ports in use are exactly those of the open sockets, one each.", "quantifier": "every history of socket creation and closing", "why_tests_cant": "stateful generator over arbitrary histories", "anchors": ["src/playground/network/devices/vnic/VNIC.py: VNIC.createOutboundSocket, createInboundSocket, closePort"]}
{"id": "C32", "title": "VNIC routes data only to the matching connection", "statement": "Data arriving for (source, sport, dest, dport) goes only to the connection with exactly that key, or, if there is none, creates a connection of the open listener on dport that holds it; otherwise it is dropped and nothing changes. Every control connection in dump mode gets one copy. Data is only ever written to a reverse connection opened for that key.", "quantifier": "every state of the demultiplexer and every packet", "why_tests_cant": "all keys and histories", "anchors": ["src/playground/network/devices/vnic/VNIC.py: VNIC.demux"]}
{"id": "C33", "title": "No bytes lost or reordered while a connection is being spawned", "statement": "Whatever the interleaving, the bytes written to the reverse connection of an attached connection are exactly the bytes that arrived for it since it was created, in order; before it is attached they are all buffered and attaching writes them once.", "quantifier": "every interleaving of arrivals and attachment", "why_tests_cant": "race between data and attach", "anchors": ["src/playground/network/devices/vnic/VNIC.py: ConnectionData"]}
{"id": "C34", "title": "Closing a port or losing the control connection releases its resources", "statement": "A close packet, or losing the control connection, closes the socket(s), frees their ports for anyone to listen on, and removes and closes every connection of theirs whose reverse connection is not still being opened; nothing else is affected. (A connection whose reverse connection is still pending, or failed, stays in the table: shown by concrete runs.)", "quantifier": "every history of opens/spawns/closes", "why_tests_cant": "history-dependent bookkeeping", "anchors": ["src/playground/network/devices/vnic/VNIC.py: VNIC.closePort, closeConnection", "src/playground/network/protocols/vsockets.py: VNICSocketControlProtocol.connection_lost"]}
{"id": "C35", "title": "Promiscuity level determines the announced address block", "statement": "setPromiscuousLevel(n) sets the level to n clamped to 0..4 (None is 0); in every history of level changes, (re)connections and losses, while the current link to the switch is up the last address announced on it is the VNIC's address with exactly that many trailing parts wildcarded, which the switch reads as the block of all addresses agreeing in the remaining parts.", "quantifier": "every address, every level and every history of level changes and link events", "why_tests_cant": "all addresses and levels", "anchors": ["src/playground/network/devices/vnic/VNIC.py: VNIC.setPromiscuousLevel"]}
{"id": "C36", "title": "Control client matches each response to its request exactly once", "statement": "Every connect or listen request of a client gets a new id. Whatever the order and number of requests, responses, spawn notifications and timeouts, the future of a request is completed exactly as the first answer carrying its id says (a listen: the first open response; a connect: the first failing response or spawn notification), once, never after its caller timed out, and by nothing else; every spawn notification for a requested id is passed on once with its port; packets are handled in order.", "quantifier": "every history of requests, timeouts and packets (any contents, any order, any chunking)", "why_tests_cant": "orderings are unbounded", "anchors": ["src/playground/network/protocols/vsockets.py: VNICSocketControlClientProtocol"]}
{"id": "C37", "title": "A data connection and its notification are paired exactly once in either order", "statement": "On a port that is not reused too early, the stacks built are exactly first connection with first notification, second with second and so on, whichever arrives first; however ports are reused, no connection and no notification is used twice and only ones of the same port are joined. All data of a connection, early data included, reaches its application in order and once; getConnections lists the built connections not reported lost; a loss is reported once.", "quantifier": "every interleaving of connections, notifications, data and losses on any number of ports", "why_tests_cant": "race conditions", "anchors": ["src/playground/network/devices/vnic/connect.py: CallbackService"]}
{"id": "C38", "title": "Stacked protocols are wired bottom to top", "statement": "Calling a StackingProtocolFactory with n>=1 factories yields a chain of new protocols, each one's higher protocol being that of the next factory, in the given order; completing a data connection puts the stack on the callback protocol and the application on top, touching nothing else.", "quantifier": "all lists of factories (any that make new protocols, stack factories included) and all existing objects", "why_tests_cant": "all lengths", "anchors": ["src/playground/network/common/Protocol.py: StackingProtocolFactory.__call__", "src/playground/network/protocols/vsockets.py: VNICCallbackProtocol.setPlaygroundConnectionInfo", "src/playground/network/devices/vnic/connect.py: CallbackService.buildStack"]}
{"id": "C39", "title": "WAN routes are shortest paths", "statement": "After a successful setDirectConnections (whatever happened before, and with any registerLANSwitch calls after it), for different locations a and b: getRoute(a,b) is a path of current direct connections from a to b with the least number of hops if b is reachable, and [] otherwise; following nextHop from a reaches b after exactly that many hops. At any time, even after a call that raised, a non-empty route is a path of current direct connections. A call succeeds exactly if every location it names is registered.", "quantifier": "all histories of registerLANSwitch/setDirectConnections calls, successful or not, over any number of locations; all pairs of locations", "why_tests_cant": "the number and shape of topologies, and the histories producing them, are unbounded; incremental recomputation reuses old routes", "anchors": ["src/playground/network/devices/routing/HierarchyWAN.py: registerLANSwitch, setDirectConnections, updateAllPairsShortestPaths, getRoute, getRoutes, nextHop, getPrefixes"]}
{"id": "C40", "title": "Management requests are executed only when authorised and answered once with the same id", "statement": "Over any sequence of requests to an SPMP server, the operations run are exactly those of the authorised requests that name an operation of the device, in order and with the arguments given; each authorised request gets exactly one response, in order and with its own request id and command, carrying the operation's result or the text of the error; each unauthorised one closes the connection once and runs nothing. The local-access policy authorises exactly the peers whose host is 127.0.0.1. When the management protocol shares a connection with another protocol, all other packets reach that protocol in order, as if no management packets had been there.", "quantifier": "every server API, policy, device state, peer and sequence of packets", "why_tests_cant": "security property over all inputs", "anchors": ["src/playground/network/protocols/spmp.py: SPMPServerProtocol, LocalAccessSecurityPolicy, HiddenSPMPServerProtocol, FramedProtocolAdapter"]}
{"id": "C41", "title": "Route lookup returns the first matching route, else the default; a route has one owner", "statement": "With every route a valid address block, getRoutingDevice(address) returns the device of the first route in table order whose block contains the address, else the device of the default route, else None. addRoute refuses a route that is in the table, removeRoute refuses unless the device owns it, and both leave every other route and the order as they were. (Refuted: a route that is not a block is accepted and makes lookups raise; the default route can be taken from its owner, also as '__DEFAULT__'.)", "quantifier": "every route table, address, device and route", "why_tests_cant": "all tables and orders; tests see a few", "anchors": ["src/playground/network/devices/pnms/NetworkManager.py: RoutesView.getRoutingDevice, RoutesDeviceAPI.addRoute, removeRoute, setDefaultRoute, unsetDefaultRoute"]}
{"id": "C42", "title": "Line input does not depend on chunk boundaries and loses no byte", "statement": "For every LineReceiver subclass (its methods may switch between line and raw mode, feed data back, clear the buffer, stop or raise) and every sequence of data_received/setLineMode/setRawMode/clearLineBuffer calls: the bytes handed out so far plus the buffer are exactly the bytes that came in, in order; line_received is called only in line mode, with the bytes up to the next delimiter, at most MAX_LENGTH of them; rawDataReceived only in raw mode; lineLengthExceeded only with more than MAX_LENGTH pending bytes; nothing deliverable is held back when data_received returns normally; a line that is too long is never delivered. For a subclass that only consumes, the lines delivered depend only on the concatenation of the chunks, as long as every line plus delimiter fits in MAX_LENGTH+1. Refuted: at exactly MAX_LENGTH a cut delimiter drops the connection; on an asyncio transport (no `disconnecting` attribute) only one line per call is delivered and AttributeError is raised.", "quantifier": "every delimiter, maximum length, subclass behaviour, sequence of calls and way of cutting the input into chunks", "why_tests_cant": "the result must be the same for all chunkings and the subclass may reenter in any way; unit tests fix both", "anchors": ["src/playground/common/io/ui/CLIShell.py: LineReceiver.data_received, setLineMode, setRawMode, clearLineBuffer, lineLengthExceeded"]}
{"id": "C43", "title": "Authenticated decryption rejects modified ciphertext and restores plaintext", "statement": "Data encrypted by one EncryptThenMac object is decrypted to the same data, whatever its length, by another object with the same keys and iv, for any block cipher and any MAC that verifies its own tags. With HMAC, data other than a ciphertext followed by that ciphertext's own tag gives None; none of it reaches the cipher and the object stays usable. Data that is accepted although no encryption produced it carries a valid tag for a ciphertext no encryption produced. Ciphertexts are the CBC chain of the data padded with 1 to 16 bytes, and unpadding succeeds exactly on padded data. One object gives data at most once.", "quantifier": "every data, ciphertext, tag, iv, block cipher, MAC and sequence of calls", "why_tests_cant": "all lengths and all forgeries", "anchors": ["src/playground/common/CipherUtil.py: CIPHER_AES128_CBC, MAC_HMAC_SHA1, RSA_SIGNATURE_MAC, EncryptThenMac"]}
{"id": "C44", "title": "Draining the Deserializer terminates on every input", "statement": "After any bytes whatsoever have been passed to update(), iterating over nextPackets() ends, having yielded or reported at most one event per byte in the buffer.", "quantifier": "every history of updates with arbitrary bytes and of single turns of nextPackets(), every set of registered packet types", "why_tests_cant": "termination on all byte strings; a stuck error/resynchronise loop shows only on particular malformed inputs", "anchors": ["src/playground/network/packet/PacketType.py: PacketType.Deserializer.nextPackets", "src/playground/network/packet/encoders/PlaygroundStandardPacketEncoder.py: PacketEncoder.decodeIterator"]}
{"id": "C45", "title": "Whatever bytes arrive, delivered packets are well formed", "statement": "Every packet a Deserializer delivers, for arbitrary input bytes, is an instance of a class registered for the Deserializer's base class and a subclass of it, and every set field at any depth holds a value of its declared type that satisfies the declared MaxValue/MinValue/Bits and fits the declared wire width; list elements are never unset.", "quantifier": "every byte string, segmentation and set of packet definitions", "why_tests_cant": "adversarial input space is unbounded", "anchors": ["src/playground/network/packet/encoders/PlaygroundStandardPacketEncoder.py: decodeIterator of every encoder", "src/playground/network/packet/fieldtypes/PacketFieldType.py: setData"]}
{"id": "C46", "title": "Definition silos restore the previous silo and isolate their definitions", "statement": "After a `with PacketDefinitionSilo` block, however nested and whether or not its body raised, the current silo is the one before the block; definitions made in the block reach no silo that the block does not name.", "quantifier": "every program of nested silo blocks, class statements and exceptions", "why_tests_cant": "unbounded nesting and all exception points", "anchors": ["src/playground/network/packet/PacketDefinitionRegistration.py: PacketDefinitionSilo", "src/playground/network/packet/PacketType.py: PacketDefinitionLoader.__new__"]}
{"id": "C47", "title": "Stacked transports pass every call to the lowest one", "statement": "A write, close or abort on a transport stacked any number of times is exactly one such call on the lowest transport; writelines is one write per piece in order; sockname, peername and spawnport are those of the highest layer that was given one, any other extra info only that of the top layer.", "quantifier": "all stacks of transports, all extra dictionaries, all calls", "why_tests_cant": "depth of the stack is unbounded", "anchors": ["src/playground/network/common/Protocol.py: StackingTransport"]}
{"id": "C48", "title": "A management query returns the response to its own request", "statement": "SPMPClientProtocol.query returns only a response that carries the id of its own request. If the server answers in the order of the requests and no id is used twice, every query that was answered has returned its answer once no task is left to run, whatever order the tasks ran in, and no unanswered query has returned.", "quantifier": "every interleaving of queries, responses, notify tasks and woken waiters", "why_tests_cant": "schedules of several concurrent queries; the random id", "anchors": ["src/playground/network/protocols/spmp.py: SPMPClientProtocol", "src/playground/asyncio_lib/SimpleCondition.py: SimpleCondition"]}
{"id": "C49", "title": "Certificate chain validation checks every adjacent signature", "statement": "ValidateCertChainSigs returns True exactly when every certificate in the list is signed by the (RSA) key of the next one; otherwise the first bad link decides: False if its signature does not verify, AttributeError if the issuer's key is not RSA. getCertSubject and getCertIssuer map each attribute name to its last value.", "quantifier": "every list of certificates and every signature scheme", "why_tests_cant": "chains of every length and every position of the bad link", "anchors": ["src/playground/common/CipherUtil.py: ValidateCertChainSigs, getCertSubject, getCertIssuer"]}
{"id": "C50", "title": "The network configuration lasts: each pnetworking command has its effect after a restart, or is refused without any", "statement": "With names without capital letters: after any history of add, remove, connect, disconnect, route and default-route commands, each run in its own process, the configuration file loads; it describes exactly the network those commands produce in order; a refused command raises and changes nothing; every connection goes from an existing interface to an existing access point and every route belongs to an existing interface; removing a device removes its connections and routes. Device settings are those of the options given, the last of each kind. (Refuted: removing a non-default route succeeds and is undone by the restart; adding a device with a capital letter succeeds and makes every later load fail.)", "quantifier": "every history of commands, every name, route, and option list", "why_tests_cant": "histories are unbounded and each command is followed by a restart", "anchors": ["src/playground/network/devices/pnms/NetworkManager.py: NetworkManager.loadConfiguration, addDevice, removeDevice, getDevice", "src/playground/network/devices/pnms/InterfaceDevice.py: InterfaceDevice", "src/playground/network/devices/pnms/NetworkAccessPoint.py: NetworkAccessPointDevice.initialize", "src/playground/network/devices/pnms/pnetworking.py"]}
{"id": "C51", "title": "Enabling, disabling and switching devices does what it says and reports the truth", "statement": "With a configuration as C50 keeps it, whatever processes run beforehand: every pnetworking command first stops the interfaces running without a usable access point (reported as waiting) and leaves the rest alone; after any command that ends normally a device is reported enabled exactly if it is remote or its process runs; if processes start and stop as told, enable of a connected device succeeds and starts its access point first, touching nothing else; disable stops the device only; on starts every auto device with what it needs; off stops every device that is not remote; after status, enable or on, every running interface has a usable access point. A command raises only if a process does not stop in time or dies after leaving its run files. (Refuted: enabling an interface left running without its access point ends with it disabled - a second enable is needed; disabling an access point leaves its interfaces running and reported enabled until the next command; a process that dies half-way makes enable raise ProcessLookupError.)", "quantifier": "every configuration, every set of running processes, every command, every outcome of starting and stopping processes", "why_tests_cant": "the outcome depends on the processes found and on how each start and stop ends, over unbounded configurations", "anchors": ["src/playground/network/devices/pnms/PNMSDevice.py: PNMSDevice.enable, disable, enabled, _runEnableStatusStateMachine, _shutdown, _running", "src/playground/network/devices/pnms/InterfaceDevice.py: InterfaceDevice._reloadRuntimeData, dependenciesEnabled", "src/playground/network/devices/pnms/NetworkAccessPoint.py: NetworkAccessPointDevice.enabled, enable, disable", "src/playground/network/devices/pnms/NetworkManager.py: NetworkManager.on, off, getDevice, _loadDevices", "src/playground/network/devices/pnms/SwitchDevice.py: SwitchDevice._launch", "src/playground/network/devices/pnms/VnicDevice.py: VNICDevice._launch"]}
{"id": "C52", "title": "Who gets a packet sent in a wide area network", "statement": "For a device located at a LAN p and a destination block (not a gateway address): the packet is written once to every device at p that announced a block containing the destination (or the gateway address of the next hop), c times to every such device on the LAN of the next hop, and to nobody else; c is at most the number of open links towards the next hop and equal to it if nothing is lost; if no setDirectConnections call raised, it is at least one. A device with no location, not connected, or sending to an unreadable address sends nothing; announcing an address takes a device off its LAN until its location is set again. Every packet comes to rest if no LAN is connected to itself. (Refuted: packets are not forwarded beyond the next hop, although getRoute finds the way; the same packet arrives k times after k setDirectConnections calls, and twice one way if both LANs name each other; LAN 0 is never routed to; with a LAN connected to itself a packet to its gateway circulates for ever.)", "quantifier": "every history of connecting, announcing, locating, losing devices, registering LANs and setting direct connections; every pattern of lost writes; every sender, destination and receiver", "why_tests_cant": "the links and the tables of every switch depend on the whole history, on both the order of calls and which writes were lost", "anchors": ["src/playground/network/devices/routing/HierarchyWAN.py: HierarchyWAN, DirectLinkTransport, createDirectLink, destroyDirectLink, setDirectConnections, setLocation", "src/playground/network/devices/routing/HierarchyRouter.py: HierarchyRouter.setPrefix, getOutboundLinks, registerLink, unregisterLink", "src/playground/network/protocols/switching.py: PlaygroundSwitchRxProtocol", "src/playground/network/devices/switch/Switch.py: Switch"]}
{"id": "C53", "title": "Observing a protocol changes nothing and tells every listener once", "statement": "While somebody listens to a protocol (ProtocolObservation.Listen until StopListening or connection_lost), each call of its connection_made, data_received or connection_lost runs the protocol's own method exactly once and then tells every one of its listeners exactly once; writes on the transport given to connection_made are written once and told likewise. What protocols and transports themselves see (calls, order, exceptions) is the same as without any observation, whatever nested calls they make; when nobody listens any more every replaced method is back. (Refuted: a listener that stops listening when told makes the call raise RuntimeError; who starts to listen after connection_made is not told of writes; a second connection_made with the same transport makes every later write recurse for ever; two observed protocols on one transport end with a write that is lost; a connection_lost that raises leaves the observation in place; a protocol without a transport attribute fails in connection_made only when observed.)", "quantifier": "every history of Listen, StopListening and calls on any number of protocols and transports; every reaction of protocols, transports and listeners, nested to any depth; every iteration order of the listener sets", "why_tests_cant": "nested calls and the order of listening, stopping, connecting and losing are unbounded", "anchors": ["src/playground/network/common/Protocol.py: ProtocolObservation, ProtocolObservation.ProtocolAdapter"]}
{"id": "C54", "title": "A waiter on a condition returns when its predicate holds and it has been notified often enough", "statement": "SimpleCondition.awaitCondition(p) returns at most once and only at a moment when p is true. Every notify() takes effect once and wakes exactly the task that has waited longest. A task that is not timed out and whose predicate is true from some moment on has returned once no task is left to run, provided notify() is called from then on more often than tasks waited ahead of it; with fewer notifications it does not return, whatever its predicate says. (Refuted: one notify() per change is enough - two tasks waiting for different things, which happen in the other order, leave the first waiting for ever although its predicate is true; a notification that wakes a task timed out in the same turn is lost.)", "quantifier": "every number of waiting tasks, every predicate and application state, every history of awaitCondition, notify, state changes and timeouts, every order in which ready tasks run", "why_tests_cant": "the schedules of tasks and notifications are unbounded, and hanging for ever is not observable by a test", "anchors": ["src/playground/asyncio_lib/SimpleCondition.py: SimpleCondition"]}
{"id": "C55", "title": "create_connection returns the caller's own application; a call that does not end waits for the network", "statement": "With one VNIC, whatever the VNIC, the callback connections and the scheduler do, create_connection returns a protocol made by the caller's own factory for the caller's own request, over the data connection its stack was built on, after its connection_made, and no two calls return the same protocol; a call ends at most once; create_server returns the number of its own listen request. A program that only makes connections opens at most one control connection to each VNIC. If connections are asked for one at a time and nothing can run, a call that has not ended waits for TCP, for the VNIC's answer, for a data connection with its number or for that application's connection_made. If the first create_connection to a VNIC fails to reach it, no later call to that VNIC ever ends. (Refuted: with two VNICs, whose requests are numbered alike, create_connection can return a server's application, or raise although its connection was made; two create_server calls open two control connections; two simultaneous create_connection calls whose data connections come in the other order leave one waiting for ever, as does a data connection lost before its call looks.)", "quantifier": "every history of create_connection and create_server calls to any number of VNICs, control packets, callback connections with their data and loss, connection_made calls, notify tasks and timeouts, in any order", "why_tests_cant": "the interleavings of coroutines with three kinds of network events are unbounded, and a call that never ends is not observable by a test", "anchors": ["src/playground/network/devices/vnic/connect.py: PlaygroundConnector.create_playground_connection, create_playground_server, ConnectionMadeObserver, CallbackService.waitForConnections", "src/playground/network/protocols/vsockets.py: VNICSocketControlClientProtocol"]}
{"id": "C56", "title": "Float fields: exact doubles, correctly rounded singles", "statement": "A 64-bit float field transmits every double bit for bit. A 32-bit one (the default) transmits the single nearest to the value, ties to even, raises OverflowError exactly if the magnitude is half way past the largest single or more, and the receiver reads exactly that single; so a finite value arrives unchanged exactly if it is a single. Infinities and NaNs pass a field without declared limits; any other declared width fails. A received or assigned value outside the declared limits is a ValueError; a field of width w takes exactly the floats up to 2^w - 1, unrounded. An integer assigned to a float field becomes the nearest double, ties to even, or a ValueError if it is too large. (Refuted: FLOAT32 refuses most singles, +infinity and NaN; accepts -2^200, which cannot be encoded; changes 0.1.)", "quantifier": "every double, every single, every integer, every declared limit", "why_tests_cant": "2^64 values, with the errors at ties, subnormals and the overflow boundary", "anchors": ["src/playground/network/packet/fieldtypes/FloatFieldType.py: FloatFieldType", "src/playground/network/packet/encoders/PlaygroundStandardPacketEncoder.py: FloatEncoder", "src/playground/network/packet/fieldtypes/attributes/scalar_validators.py: BitsValidator"]}
{"id": "C57", "title": "The connector service and the choice of a connector by host", "statement": "getConnector(name) gives the connector set under name since the last load of the connector modules, else the one the last module of that load sets under it, else the one the user set before, else, for \"default\", the built-in one, else NoSuchPlaygroundConnector. The modules are loaded once, at the first call or when forced; a load runs each once, in listing order, and one that fails does not touch the others or the caller. Every call ends, whatever the modules do (load, force a load, ask for connectors, fail); \"default\" is never missing; a connector the user set stays over forced reloads unless a module sets its name. create_connection and create_server take the connector before the only \"://\" of the host, the default one without, ValueError with several, and leave the host alone if family is given. (Refuted: without the connectors directory no connector can be got, not even one just set; a module that asks for a connector runs twice and its connectors outlive it; after a module has called sys.exit() a connector set by the user is lost.)", "quantifier": "every sequence of calls, every directory listing at each call, every sequence of service calls by every module, every host string", "why_tests_cant": "loads nest when modules call the service; the outcome depends on the whole history", "anchors": ["src/playground/network/devices/vnic/connect.py: PlaygroundConnectorService, create_server, create_connection"]}
{"id": "C58", "title": "The command shell runs the command that was typed", "statement": "A line written as a command's name and words (in quotes if needed) runs the callback configured for that command, sub command and number of words, with exactly those words (without a leading \"f://\") or what the argument handler makes of them, and no other callback; the answer is (True, what it returned), or (False, None) if it or the handler raised or the handler returned None. Words nothing is configured for call nothing, are answered (False, None) and the user is told. Commands, sub commands and argument counts cannot be configured twice, so the words determine the callback. Whatever the line, at most one callback is called and line_received does not raise. help shows a line for every way of calling something and no other. Completion enumerates the commands, sub commands or files with the typed prefix in order. batch runs its file's lines in order, each after the last one's future, to the first that fails. (Refuted: after the last sub command or file, completion raises TypeError instead of returning None; a batch runs ordinary commands: it stops after the first command that returns None.)", "quantifier": "every line, every tree of commands built by the API, every behaviour of callbacks, handlers, files and futures", "why_tests_cant": "all quotings of all words over arbitrary command trees; the environment's behaviour depends on the history", "anchors": ["src/playground/common/io/ui/CLIShell.py: CLICommand, CLIShell, completeKeys"]}
{"id": "C59", "title": "The shell reads one line at a time", "statement": "For every interleaving of the input thread and the event loop: a line is read only when every earlier line has been processed and the future it answered with is done; lines are processed in order, none twice, none lost. If commands answer with None, something false, a future or a batch, the thread is never stuck, and reads again within three steps of the loop. connection_lost is called exactly once by the thread's end and no line is processed after it. After close at most one more line is read. (Refuted: if a command answers with a coroutine object or anything else true that is no future, no line is ever read again; a line read after close is still executed.)", "quantifier": "every schedule of input, loop, futures, wake-ups and close", "why_tests_cant": "the property is about all interleavings of two threads", "anchors": ["src/playground/common/io/ui/CLIShell.py: AdvancedStdio"]}
{"id": "C60", "title": "What is logged where", "statement": "After any history of enableLogging, enableHandler, disableHandler and clearAllHandlers, a handler writes a record exactly if logging is on, the record's level reaches those of the logger (or root), of the last enableLogging and of the handler, and the handler is enabled with modules and tags that admit the logger's name: the name is below one of the modules (the given ones or playground, and those of the last enableLogging that gave any) and its tag is empty or chosen. After any sequence of presets stderr and the new log file get what the last preset says, earlier files nothing. n times v on the command line is the n-th preset. (Refuted: clearing forgets a handler: the modules and tags it was enabled with when cleared filter it for ever, so MAX after VERBOSE shows no auxiliary module on stderr; MINIMAL logs only playground: after VERBOSE it logs asyncio too; VERBOSE, DEBUG, TEST and MAX log all messages: a tagged logger's or the logger playground's never; a wrong preset changes nothing: it raises and switches all logging off; tags can be excluded: NameError; every tag comes back from its logger's name: not one with a dot.)", "quantifier": "every history of configuration calls and presets, every logger name, level and handler", "why_tests_cant": "depends on the whole history of calls through filters that stay on the handlers", "anchors": ["src/playground/common/logging.py: TaggedLogger, PlaygroundLoggingFilter, PlaygroundLoggingConfiguration, EnablePresetLogging, CmdLineToLogging"]}
{"id": "C61", "title": "A configuration file holds what was saved", "statement": "Saving a configuration and opening the file again gives the same sections, options, values and order exactly if a file can hold it: distinct section names of one line that are not empty nor DEFAULT; distinct option names without capitals, = : or line breaks, not empty, with no space at either end and not beginning with # or ;; values with no space at either end of a line, no later line like a comment and no empty last line; and no option line like a section's. Whatever file was opened, saving it unchanged changes nothing for the next one who opens it. After any history of pnetworking commands whose arguments are words of small letters, digits and _-.@*/ the file is read without error, as the configuration that the commands made. (Refuted: whatever the application sets is there after a save: not outside those conditions; an option that begins with # or ; is gone without an error, and one with = or : is cut there, so a device a:b of type vnic becomes a device a of the type \"b = vnic\".)", "quantifier": "every configuration (defaults, sections, options, values), every file text, every history of pnetworking commands", "why_tests_cant": "texts, names and values are unbounded and every line's meaning depends on those before it", "anchors": ["src/playground/common/Configure.py: PlaygroundConfigFile.save, PlaygroundConfigFile.reload", "src/playground/network/devices/pnms/NetworkManager.py: _loadConfig, saveConfiguration"]}
{"id": "C62", "title": "Configuration files: where they are, who writes them, what is read", "statement": "The configuration directory is the first that exists of the accepted custom paths (latest first), the instance's, the user's and the system's. An identifier without a slash names a file below the location, never above it, and different identifiers whose parts are not empty are different files. A file changes only by another program, a save of a handle opened for writing, or an open that creates; a handle opened for reading cannot save. What a handle held when it was saved is what everyone reads who opens the file before it is written again, with the sections of his spec that the file lacks and nothing else changed. A value read is the stored one (its section's, else the default) with %% and %(name)s replaced, nested at most ten deep; a text set with its percent signs doubled is accepted and reads back as it was, and no other option is changed. A new file has the spec's sections and no others; a missing file opened without creation is an error that changes nothing; while the file was not written since the handle was opened, reload keeps everything. A reload or save that raises leaves the handle's values, and a file that does not parse is an error for whoever opens it; deleting and assigning a section change it alone; a set in a section that is not there is an error that changes nothing. (Refuted: an identifier is a file's only name: a..b is a.b; identifiers stay below the location: one that begins with a slash does not; what can be set can be read: \"%(a)%%s\"; a failed section assignment changes nothing: the section is emptied; a read handle changes nothing: opening with overwrite empties the file; reload only brings in what others wrote: after the handle's own save it drops what was set since; a section proxy goes on being the handle's after a reload; what was saved stays when two handles are on a file; a crash during save leaves the old or the new configuration: it can leave none, or one with a value cut short, with no error for the reader.)", "quantifier": "every history of Configure and PlaygroundConfigFile operations by any number of handles, every file system, identifier, spec, text and crash point", "why_tests_cant": "paths, texts and histories are unbounded, and what is read depends on who saved last", "anchors": ["src/playground/common/Configure.py: Configure.ConfigPath, Configure.CurrentPath, Configure.AddCustomPath, PlaygroundConfigFile.Open, PlaygroundConfigFile.Exists, PlaygroundConfigFile.reload, PlaygroundConfigFile.save, PlaygroundConfigFile.__getitem__, PlaygroundConfigFile.__setitem__"]}
{"id": "C63", "title": "Mock transports: order, delivery and closing", "statement": "For a pair of mock transports (or two that write to storage streams), whatever the protocols and the application do: a write is delivered at most once and nothing is invented; connection_lost is called at most once per side; writeCount is the number of accepted writes; callbacks go to the transport's own protocol. With delays that are not changed, what was delivered is the first part of what was written, in order, and until the other side is lost the rest is exactly what the loop has still to run; without delays every accepted write is delivered at once, and a side is given nothing after its own close. Once either side closes (no connection_lost raises, every delay has its loop) both protocols are told exactly once when the loop is done, and a protocol is given nothing after it is told. A side that never closes by itself has been given everything written to it when it is closed. Nothing arrives before the delay has passed, and an undelayed write that is accepted either is delivered before anything else happens or raises. (Refuted: order when a delay is changed, or on asyncio's loop for writes at one reading of the clock; nothing after one's own close with a delay; delivery of what is on its way when the receiver closes; both told, or nothing after it, when a connection_lost raises; delayed writes with TestLoopEx: they arrive as an int or not at all; close with setWriteDelay(None, -1).)", "quantifier": "every history of writes, closes, delay changes, clock ticks and loop steps, every program of the protocols (which may call either transport from inside a callback), every data and delay", "why_tests_cant": "callbacks re-enter the transports to any depth and the loop's steps interleave with the application without bound", "anchors": ["src/playground/network/testing/mock.py: MockTransportBase.write, MockTransportBase.close, MockTransportBase.setWriteDelay, MockTransportToProtocol.CreateTransportPair, MockTransportToProtocol._write, MockTransportToProtocol._close, MockTransportToStorageStream._write", "src/playground/asyncio_lib/testing/TestLoopEx.py: TestLoopEx.call_later"]}
{"id": "C64", "title": "A VNIC process: its one link to the switch, and its status file", "statement": "Whatever attempts fail and links are lost, a VNIC process is doing exactly one of: waiting at most 30 seconds for its next attempt, attempting to connect, opening a link, having its one link up; provided the loss can be written to the status file or the reconnecting listener is told first. In every history it does at most one of these, and it answers \"switch-live\" with Connected exactly while the link is up. Attempts are at least 30 seconds apart. From every such state it is connected within 30 seconds once attempts succeed. While every write of the status file succeeds, the file is the port, the switch and whether the link is up; the manager then finds the port and reports the device Live exactly while the link is up and Failed otherwise (the switch's name lacks the word \"connected\"). A file that is read while it is being written, or was cut, is read as Unknown or as the status being written, and the port is right once its line is complete. (Refuted: a loss that cannot be written when the status listener is told first - the VNIC never connects again and is reported Live for ever; a switch named disconnected.example is reported Failed while up; a cut port number is another port.)", "quantifier": "every history of clock ticks, timer runs, failed and successful attempts, links made and lost, every outcome of every write of the status file (cut anywhere), both orders of the two listeners, every port and switch name", "why_tests_cant": "attempts, losses and failing writes interleave without bound, and the reader may see the file cut at any character", "anchors": ["src/entry_points/launch_vnic.py: VnicStatusListeners.alert, StatusManager.writeStatus, ConnectToSwitchTask.alert, ConnectToSwitchTask.connect, ConnectToSwitchTask._connectFinished", "src/playground/network/devices/vnic/VNIC.py: VNIC.switchConnectionFactory, VNIC.connected, VNIC.disconnected", "src/playground/network/devices/pnms/InterfaceDevice.py: InterfaceDevice.connectionStatus, InterfaceDevice.tcpLocation"]}
{"id": "C65", "title": "Is a process alive?", "statement": "Of what ps prints (a header, a line for each process found, blank lines), isPidAlive answers True exactly when one process is listed, whether or not the last line is ended. (Refuted: any other message of one line counts as a living process.)", "quantifier": "every header beginning with PID after blanks, every list of rows whose last is not blank, every number of blank lines after them", "why_tests_cant": "ps's output differs between systems: the claim is about every such text", "anchors": ["src/playground/common/os.py: isPidAlive"]}
{"id": "C66", "title": "Managing a WAN over its verbs", "statement": "Whatever requests arrive at the WAN's management interface, in whatever order, and whatever devices do meanwhile: each event comes to exactly the WAN calls its text says (so C39 and C52 hold of a WAN managed this way), the locations are those of the map the requests describe, and get-route answers with a path over that map's direct connections or []; after a set-direct-connections that was answered without error, until the next one, with a shortest path, [] meaning none. add-switches adds what it names up to the first argument that is no number or already there, and answers without error exactly if that is all; set-direct-connections with an argument that is no number changes nothing, otherwise is refused exactly if a location is unknown; set-location moves the first connection of that name and no other, and list-connections then shows it there; a wrong number of arguments is refused without a change; questions, remove-switches and unknown verbs change nothing; requests from other hosts are not answered, change nothing and are disconnected. Different routes, and different route tables, print differently. (Refuted: remove-switches answers None for each and removes nothing; a refused add-switches may have added some; a refused set-direct-connections has taken the location's connections down; set-location to a place without a switch answers Changed and the device's packets go nowhere.)", "quantifier": "every history of requests (any verb, any arguments, any peer) and of devices connecting, announcing and leaving, every pattern of losses, every behaviour of the settings verbs", "why_tests_cant": "histories are unbounded and the texts of arguments and answers range over all strings", "anchors": ["src/entry_points/launch_wan.py: SPMPWAN.buildSpmpApi, SPMPWAN.setConnectionByName, SPMPWAN.printRoutes, SPMPWAN.ProtocolFactory", "src/playground/network/devices/routing/HierarchyWAN.py: HierarchyWAN.registerLANSwitch, HierarchyWAN.unregisterLANSwitch, HierarchyWAN.setDirectConnections, HierarchyWAN.setLocation, HierarchyWAN.getRoute", "src/playground/network/protocols/spmp.py: SPMPServerProtocol._processSpmpRequest, LocalAccessSecurityPolicy.authorized"]}
{"id": "C67", "title": "An unreliable switch and its verbs", "statement": "Whatever requests, packets, connections, losses and timer events happen on an unreliable switch in whatever order, with whatever random choices: get-error-rate and get-delay-rate report the setting made last, on whatever link, and a setting is made exactly when set-error-rate or set-delay-rate has two numbers, else an error is answered and nothing set; any peer may ask; a reliable switch does not know these verbs. Packets are dispatched to the links the addressing rules name under the announcements that counted, all of them unless an error position cannot be drawn at that moment. While the error setting stays as it was, of the packets dispatched to a link that is not lost each has been written to it exactly once or is waiting, with no more than single bytes complemented; replies to requests are not touched. After a setting from which no position can be drawn nothing reaches any link until the setting is made anew. Once set-delay-rate has been used either every packet is delayed or none is. However earlier settings left an error transport, after a bounded number of writes it complements exactly the bytes drawn, as a new one does. (Refuted: set-delay-rate 100 is reported as every 100th packet and delays all; a packet can vanish at a change of the error setting.)", "quantifier": "every history of connections, packets, requests, timers and losses on any links, every outcome of the random choices, every setting", "why_tests_cant": "quantifies over schedules, histories and randomness", "anchors": ["src/entry_points/launch_switch.py: SPMPSwitch.buildSpmpApi, SPMPSwitch.ProtocolFactory", "src/playground/network/devices/switch/UnreliableSwitch.py: UnreliableSwitch, DelayTransport, ConstantErrorTransport", "src/playground/network/protocols/switching.py: PlaygroundSwitchRxProtocol._data_received", "src/playground/network/protocols/spmp.py: FramedProtocolAdapter"]}
{"id": "C68", "title": "The echo programs: an application over the packet layer", "statement": "A user of the echo client types messages (ASCII, shorter than 2^16 characters); bytes travel in both directions in order, cut and delivered at any moments. The client's callback has then got a prefix of the messages, in order, each once, unchanged; once no bytes are under way it has got all of them; and delivering what is under way gets there. The server closes exactly when it is told to quit, having answered everything before. The server answers exactly the packets marked as original, whatever their mixture and segmentation, with packets that are not, so that two servers never answer each other. The raw client receives a prefix of what it sent, ends with all of it, closes exactly once then, and its report says so and marks exactly the differing bytes. Findings: QUIT is not final; a packet without message makes the server raise; the client's close() always raises; a non-ASCII message is lost; the raw report raises IndexError for a short message that came back short, and marks nothing in a long one; an empty raw message never closes.", "quantifier": "every sequence of messages, every segmentation, every order of deliveries, every mixture of packets, every byte string", "why_tests_cant": "quantifies over messages, segmentations and schedules", "anchors": ["src/test/echotest.py: EchoPacket, EchoServerProtocol, EchoClientProtocol, EchoControl", "src/test/raw_echotest.py: RawEchoClient, RawEchoServer, create_compare_data", "src/playground/network/packet/PacketType.py: Deserializer"]}
{"id": "C69", "title": "Managing a running VNIC: level, logging and link status over the control port", "statement": "Clients of a VNIC's control port send management requests and level packets, in any order, while the link to the switch comes and goes. The promiscuity level reported (by verb or by packet) is the one asked for last in either way, cut to 0..4; whatever the links do, what the current link announced last is the block of that level; and with the links in the order the launched process makes them, setting a level never fails and is always answered. switch-live then says whether the link is there. Every request gets exactly one reply, with its number, verb and arguments, in order. verbs lists exactly the verbs; any other request is refused by name and changes nothing. get-log-level gives the last level set successfully, and what is logged is what the presets set so far log. Findings: the device manager's names for the promiscuity verbs are not verbs of the VNIC; an unknown log level silences all logging while the old level goes on being reported; a fresh VNIC reports NONE but logs at DEBUG; with a second link setting a level raises, changes the level and announces nothing, and the same request again succeeds; losing the old link makes switch-live deny the new one.", "quantifier": "every history of requests, level packets and link events; every outcome of creating log files", "why_tests_cant": "quantifies over histories of requests and link events", "anchors": ["src/entry_points/launch_vnic.py: StatusVnic", "src/playground/network/devices/vnic/VNIC.py: VNIC.setPromiscuousLevel, VNIC.connectionMade", "src/playground/network/protocols/vsockets.py: VNICSocketControlProtocol.data_received", "src/playground/network/protocols/spmp.py: HiddenSPMPServerProtocol", "src/playground/network/devices/pnms/VnicDevice.py: VnicDevice", "src/playground/common/logging.py: EnablePresetLogging"]}
{"id": "C70", "title": "Finding the VNIC: from a network configuration to the TCP place a connection or server uses", "statement": "For a network built by any sequence of pnetworking commands and a program's VNIC service made at any moment, whatever happens to the processes afterwards and whatever calls the program made before: the VNIC used for a destination is exactly one - that of the first route whose block holds the destination, else the one with the default route - and none when there is neither. create_playground_connection then uses the place of that VNIC (127.0.0.1 and the port its process wrote; for a remote switch named, the switch's), a server uses the VNIC whose address is the text of the host (or the default VNIC), and a destination text is refused exactly when it is not a Playground address. Explicitly named devices are used without looking at routes. Findings: a VNIC that was not working when the service was made is never noticed later, even once it works: its place is (None, None), which create_playground_connection uses without complaint while servers refuse it, and the process's files are deleted under it; all such VNICs share that one place, so that after one failed call every later call to any of them never ends; without a configuration every call raises a TypeError; raw_vnic_connection with a name raises a NameError; \"localhost\" is routed like any address, perhaps through another VNIC than the default; hosts of servers are compared as text, so 7.7.7.7 does not find 7.7.7.07.", "quantifier": "every sequence of configuration commands, every state of the processes at the start and at each later moment, every sequence of earlier calls, every destination and device name", "why_tests_cant": "quantifies over all networks, histories of calls and process states", "anchors": ["src/playground/network/devices/vnic/connect.py: StandardVnicService, PlaygroundNetworkConnector", "src/playground/network/devices/pnms/NetworkManager.py: NetworkManager.getDevice", "src/playground/network/devices/pnms/VnicDevice.py: VnicDevice", "src/playground/network/devices/pnms/PNMSDevice.py: PNMSDevice.enabled", "src/playground/network/devices/pnms/PNMSDeviceLoader.py"]}
{"id": "C71", "title": "Throughput test: what the two sides report and when the test ends", "statement": "A client and a server of ThroughputTester.py, given any two lists of data, connected in either order, whatever the cutting and delivery of the bytes between them: no method raises; each side has at every moment received the first of the other's data, in order, each with the expected hash, so that getTestResults gives (received, expected) with all received correct; the record holds what was transmitted in order; once nothing is under way both sides have received everything, and that can always be reached; the two connections are closed once each, exactly when both sides have received everything; getTestThroughput gives the sum of the lengths sent over the time from a side's connection to the arrival of the last of its data at the other; In any state, a packet that comes when data are expected takes the next of them off, is recorded with both hashes, and counts as correct exactly if they are equal; the end of each connection is recorded once, and the end of the test once, when the second of the two is lost, whatever happened. AutoDataTestConfig gives the given count of sizes between minimum and maximum, in equal steps. Findings: if one side has nothing to send, the test never ends; the watchdog runs only once, a second after the first connection, so that a stalled test is never given up; after a lost connection a due transmit records its data as transmitted and then raises an AttributeError; unexpected data equal to b\"<NO TRANSMISSION EXPECTED>\" count as correct (more correct than expected), and a side that receives too much closes both connections alone.", "quantifier": "every pair of lists of data, order of connection, cutting and interleaving of deliveries, timers and clock readings, every hash function", "why_tests_cant": "quantifies over all interleavings of deliveries and timers of two peers and all test data", "anchors": ["src/test/ThroughputTester.py: TestConfig", "src/test/ThroughputTester.py: AutoDataTestConfig", "src/test/ThroughputTester.py: TestProtocol"]}
{"id": "C72", "title": "Status pages of pnetworking: what they show and what showing them changes", "statement": "For every network built by pnetworking commands and everything that runs: `pnetworking status` writes the path of the configuration and then one page with every device of the network, each once, in the order in which they were added (a removed and re-added device last), each with its type, name, whether it works (Enabled; Waiting for a VNIC that runs without a working access point; Disabled), its process number if its run files are there, whether it is enabled automatically, for a switch whether it is managed and where it is reached, for a VNIC its address, its access point and where that is reached, the state of its link as its status file says, and its routes in order; or it fails with what one device raises and shows nothing of any. The page is written whenever the ports of access points, given or written by those that run, are numbers. Showing the page leaves every working device alone and deletes the run files of every other. Findings: a switch added with a port that is no number makes every status page fail; a VNIC shown as Waiting is shown as Disabled by the next call; `pnetworking status NAME` and `pnetworking routes` always end with a NameError (the second after writing the text of a method), so that no command shows the page of the routes.", "quantifier": "every history of pnetworking commands, every set of running processes and run files, every content of status files", "why_tests_cant": "quantifies over all networks, histories and process states", "anchors": ["src/playground/network/devices/pnms/StatusOutputProcessor.py: DeviceStatusOutputProcessor", "src/playground/network/devices/pnms/StatusOutputProcessor.py: SwitchDeviceStatusOutputProcessor", "src/playground/network/devices/pnms/StatusOutputProcessor.py: VnicDeviceStatusOutputProcessor", "src/playground/network/devices/pnms/StatusOutputProcessor.py: RoutesStatusOutputProcessor", "src/playground/network/devices/pnms/pnetworking.py: status_handler", "src/playground/network/devices/pnms/InterfaceDevice.py: connectionStatus"]}
{"id": "C73", "title": "Log messages: what a record says at each handler", "statement": "For every record, with or without special data, and every number of handlers: a record without special data and arguments says its message as it is; with arguments, the message with each %s (or %(key)s) replaced by its argument, and %% by one percent sign, or it is lost with a TypeError (KeyError) if there are too few or too many arguments (if a key is missing). A record with special data, whose message is plain text and keys and whose converters write no percent sign, says at every handler the same text: each special key replaced by what its converter says of the data, each other key by the record's argument, or by itself if the record has no arguments. With one handler and no arguments the converters may write anything and the message may hold %%. Findings: formatting changes the record, so that after %% a second handler loses the record; if the record has arguments, what a converter writes is read as a format again (data that hold %(j)s are shown as the argument j, data with a lone percent sign lose the record); special data together with positional arguments always lose the record; special data under a key without a converter lose the record even if the message does not ask for them.", "quantifier": "every message written from text, %%, %s and keys, every record, every set of converters, every number of handlers", "why_tests_cant": "quantifies over all messages, converters, data and numbers of handlers", "anchors": ["src/playground/common/logging.py: PlaygroundLoggingFormatter.format", "src/playground/common/logging.py: PartialConverter"]}
{"id": "C74", "title": "Generators whose result is kept (ReturnOrientedGenerator)", "statement": "A ReturnOrientedGenerator around a generator that returns v, used through any number of iterators in any order, none of which is closed or dropped: its values are handed out in order, each once, to whatever iterator asks; nothing is raised; result() is GENERATOR_RUNNING until a first iterator comes to its end, which happens only when all values have been handed out; it is then v. One iterator asked until it stops hands out everything and leaves v. Findings: once a second iterator comes to its end, result() is None and v is lost; a loop left early closes the generator, so that the rest of the values and the result are lost, result() stays GENERATOR_RUNNING, and becomes None with the next loop, which gets nothing; after an exception of the generator result() still says GENERATOR_RUNNING.", "quantifier": "every list of values, every result, every interleaving of any number of iterators", "why_tests_cant": "quantifies over all generators and all interleavings of iterators", "anchors": ["src/playground/common/ReturnOrientedGenerator.py: ReturnOrientedGenerator"]}
