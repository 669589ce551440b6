{"id": "C01", "title": "Wire message round trip", "statement": "Every control message that can be built through the API, once serialized, is exactly 56 bytes long and deserializes to the identical message; serialization never panics or fails.", "quantifier": "all operations, all 2^32 users and resources, all 8-byte salts and 32-byte auth fields", "why_tests_cant": "The message space has more than 2^380 elements; the tests try five literals.", "anchors": ["letmein-proto/src/lib.rs: Message::new, Message::msg_serialize, Message::try_msg_deserialize"]}
{"id": "C02", "title": "Wire message decoder accepts exactly the valid frames", "statement": "Deserializing a byte string succeeds if and only if it is 56 bytes long, starts with the magic code and carries an operation number 0..4; on success re-serializing gives back the very same bytes; every other byte string is rejected with an error, and no byte string makes the decoder panic.", "quantifier": "all byte strings of all lengths", "why_tests_cant": "Adversarial input space is all byte strings; tests check three bad literals.", "anchors": ["letmein-proto/src/lib.rs: Message::try_msg_deserialize, Operation::try_from"]}
{"id": "C03", "title": "Wire layout conforms to PROTOCOL.md", "statement": "For every message the serialized bytes carry MAGIC, OPERATION, USER, RESOURCE (big-endian 32 bit), SALT and AUTH at the documented byte offsets 0, 4, 8, 12, 16 and 24, with the documented operation numbers.", "quantifier": "all messages, all byte positions", "why_tests_cant": "Interoperability needs every field of every message at the right place, not the one literal of the unit test.", "anchors": ["letmein-proto/src/lib.rs: Message::msg_serialize, MSG_OFFS_*, Operation", "doc/PROTOCOL.md"]}
{"id": "C04", "title": "Authentication tokens bind every protected field", "statement": "A knock or response passes authentication exactly when its auth field equals the MAC, under the given key, of operation, user, resource, salt and challenge; two messages/challenges that differ in any of those fields never share a MAC input, so a token is never valid for a different field combination except by a MAC collision.", "quantifier": "all pairs of messages, keys and challenges, every MAC function", "why_tests_cant": "The unit tests flip one bit per field of one message.", "anchors": ["letmein-proto/src/lib.rs: Message::authenticate, check_auth_ok, check_auth_ok_no_challenge, generate_auth, generate_auth_no_challenge"]}
{"id": "C05", "title": "Honest tokens always verify", "statement": "A knock authenticated with a key is accepted under the same key, and a response generated for a challenge is accepted under the same key and challenge, also after travelling through the wire encoding; neither side panics.", "quantifier": "all keys, users, resources, salts, challenges and MAC functions with 32-byte output", "why_tests_cant": "A false rejection for one rare byte pattern would not be seen by two literals.", "anchors": ["letmein-proto/src/lib.rs: generate_auth, generate_auth_no_challenge, check_auth_ok, check_auth_ok_no_challenge"]}
{"id": "C06", "title": "TCP messages survive any segmentation", "statement": "Whatever way the TCP stack splits or delays reads, successive receives return exactly the consecutive 56-byte blocks of the byte stream, in order and without loss; end of stream inside a block is reported as disconnect, never as a message. Whatever short writes occur, a successful send has put exactly the message bytes on the wire.", "quantifier": "all byte streams, all read/write chunk schedules, any number of messages", "why_tests_cant": "The number of segmentations grows exponentially with the stream; tests see only what loopback happens to do.", "anchors": ["letmein-proto/src/socket.rs: NetSocket::send, NetSocket::recv", "letmein-fwproto/src/lib.rs: FirewallMessage::send, recv"]}
{"id": "C07", "title": "Server opens the firewall only after full authentication", "statement": "In a control session the server asks the firewall daemon to open a port only if, earlier in that same session, it received a knock carrying a valid MAC under the configured key of the knocking user, sent a freshly generated challenge, and then received a response carrying a valid MAC over that very challenge.", "quantifier": "all peer byte streams, timeouts, I/O failures and random values; every prefix of every session", "why_tests_cant": "Requires all interleavings of peer behaviour and failures; a single missing check in one path opens the port.", "anchors": ["letmeind/src/protocol.rs: Protocol::run, recv_msg"]}
{"id": "C08", "title": "Server opens exactly what the configuration grants", "statement": "Whenever the server requests an opening, the request names the peer's IP address, and the port number and TCP/UDP selection of the configured resource that was named in the knock; the user is on the resource's user list (or the list is empty), has a configured key, and the port is not the control port. At most one opening is requested per session.", "quantifier": "all loaded configurations, all peer behaviours, all peer addresses", "why_tests_cant": "Depends on every configuration and every message sequence.", "anchors": ["letmeind/src/protocol.rs: Protocol::run", "letmein-conf/src/lib.rs: Resource::contains_user"]}
{"id": "C09", "title": "Error policy is honoured (stealth mode)", "statement": "With policy basic-auth or full-auth the server transmits nothing at all to a peer that has not sent a knock with a valid MAC; with full-auth it sends no GoAway until the challenge-response succeeded; with always, every protocol rejection is answered with an attempt to send GoAway.", "quantifier": "all three policies, all peer behaviours, every session prefix", "why_tests_cant": "Each of the eleven error exits must respect the policy in every authentication state.", "anchors": ["letmeind/src/protocol.rs: send_go_away, Protocol::run"]}
{"id": "C10", "title": "Server message discipline", "statement": "The messages a server sends in one session are: optionally one Challenge after the knock, then optionally one ComeIn, and ComeIn only after the firewall daemon acknowledged the opening; or a single GoAway as the last message. A session never sends both ComeIn and GoAway, and Challenge, ComeIn and post-knock GoAway echo the user and resource of the knock.", "quantifier": "all peer behaviours, failures and configurations", "why_tests_cant": "Ordering property over all executions.", "anchors": ["letmeind/src/protocol.rs: Protocol::run, send_go_away", "doc/PROTOCOL.md"]}
{"id": "C11", "title": "A control session cannot crash the server", "statement": "With any configuration produced by the loader, no peer behaviour, I/O failure or timeout makes the session handler panic, provided the operating system random generator delivers non-degenerate bytes.", "quantifier": "all loaded configurations, all peer behaviours", "why_tests_cant": "Panic freedom over all inputs (the release profile aborts the daemon on panic).", "anchors": ["letmeind/src/protocol.rs: Protocol::run", "letmein-proto/src/lib.rs: check_auth_ok asserts", "letmein-conf/src/lib.rs: get_resources"]}
{"id": "C12", "title": "A legitimate knock succeeds", "statement": "If client and server share the user's key and the resource entry, the user is allowed, the port is not the control port, and no message, timer or firewall operation fails, then the client reports success and the server has requested the opening of the resource's port for the client's address.", "quantifier": "all shared configurations, users, resources and random values", "why_tests_cant": "Completeness for every configuration, not one test config.", "anchors": ["letmein/src/command/knock.rs: KnockSeq::knock_sequence", "letmeind/src/protocol.rs: Protocol::run"]}
{"id": "C13", "title": "Control sessions make progress in bounded time", "statement": "Each single peer communication step of a control session is bounded by the control timeout; a session spends at most three times the control timeout with its peer before it sends its final message (ComeIn or GoAway), at most four times in its whole life, and makes at most ten external calls, whatever the peer does. (The waits for the firewall daemon have no time limit and are not covered.)", "quantifier": "all peer behaviours, all control timeouts", "why_tests_cant": "Bound over all schedules of slow peers.", "anchors": ["letmeind/src/protocol.rs: recv_msg, send_msg, run"]}
{"id": "C14", "title": "Replay and forgery protection (injective agreement)", "statement": "With a network attacker who sees, drops, replays, reorders and injects messages in any number of concurrent sessions but does not know the key and cannot forge MACs, every opening performed for a user and resource corresponds to a response that a holder of that user's key computed for exactly that user, resource and that session's challenge; and two openings never correspond to the same response computation.", "quantifier": "all attacker strategies, any number of concurrent client runs and server sessions", "why_tests_cant": "Quantifies over all attacker behaviours and histories.", "anchors": ["letmeind/src/protocol.rs: Protocol::run", "letmein-proto/src/lib.rs", "letmein/src/command/knock.rs", "SECURITY.md"]}
{"id": "C15", "title": "Opened address belongs to the authenticating client", "statement": "The address for which the port is opened is the address of the key holder who computed the response, even with a man in the middle (claimed: Response is 'MiM-safe').", "quantifier": "all attacker strategies", "why_tests_cant": "Security claim over all attacker behaviours.", "anchors": ["letmein-proto/src/lib.rs: Operation docs", "letmeind/src/protocol.rs: peer_addr"]}
{"id": "C16", "title": "Client only reports success after a full handshake", "statement": "The client returns success only if it received a Challenge and then a ComeIn; it sends a Response only in reply to a Challenge, always for its own user and resource and authenticated over the received challenge; any GoAway, other message, disconnect or timeout yields an error, and the client never panics with well-formed keys.", "quantifier": "all server behaviours and failures", "why_tests_cant": "All reply sequences of a malicious or faulty server.", "anchors": ["letmein/src/command/knock.rs: knock_sequence", "letmein/src/client.rs: recv_specific_msg"]}
{"id": "C17", "title": "Client picks exactly one control transport", "statement": "For every loaded configuration and every combination of command line overrides the client uses exactly one of TCP or UDP, honours explicit overrides (TCP winning when both are given), prefers TCP when the configuration has both, uses the overriding port number when given, and never trips its internal assertions.", "quantifier": "all configurations and all option combinations", "why_tests_cant": "Case product of configuration and options.", "anchors": ["letmein/src/command/knock.rs: KnockServer::to_control_port", "letmein/src/client.rs: Client::new"]}
{"id": "C18", "title": "Address mode semantics of knock", "statement": "With no address option a host name is knocked via IPv6 and IPv4 and an error is reported only if both fail; raw addresses are knocked only via their own family; with both options both must succeed; with one option only that family is used.", "quantifier": "all option combinations, hosts and per-family results", "why_tests_cant": "Product of options, hosts and outcomes.", "anchors": ["letmein/src/command/knock.rs: run_knock, AddrMode"]}
{"id": "C19", "title": "Name resolution order and family", "statement": "A literal address is never looked up in DNS; a resolved address always has the requested family; unencrypted public DNS is queried only if enabled and only after every enabled system and encrypted query failed; disabled services are never queried; the first successful lookup decides.", "quantifier": "all resolver configurations, hosts and lookup outcomes", "why_tests_cant": "2^7 configurations times all lookup outcomes.", "anchors": ["letmein/src/resolver.rs: resolve, get_first_result"]}
{"id": "C20", "title": "Firewall control message codec", "statement": "Every open/ack/nack message round-trips through its 24-byte encoding, and an open request for any IPv4 or IPv6 address, port type and port is decoded by the firewall daemon to the same address, port type and port; the decoder accepts exactly well-formed 24-byte strings and never panics.", "quantifier": "all addresses, port types, ports; all byte strings", "why_tests_cant": "2^128 addresses and all byte strings.", "anchors": ["letmein-fwproto/src/lib.rs: FirewallMessage"]}
{"id": "C21", "title": "Firewall daemon validates requests", "statement": "A request changes the firewall only if it is a well-formed open request for an address that is neither all-zero nor all-one, for a port that occurs in the configured resources and is not the control port; every other request leaves leases and kernel rules untouched and is never acknowledged.", "quantifier": "all byte strings on the unix socket, all configurations, all firewall states", "why_tests_cant": "Must hold for a compromised letmeind that sends arbitrary bytes.", "anchors": ["letmeinfwd/src/server.rs: handle_message, addr_check"]}
{"id": "C22", "title": "Kernel rules mirror the leases", "statement": "As long as nobody else edits the letmein chain and nft batches are atomic, after every operation of the firewall daemon the rules in its chain are exactly the control port rules plus the rules of the current leases, whatever sequence of openings, expirations, nft failures and reorderings occurred; rules of other chains are never touched.", "quantifier": "all histories of open/maintain operations with arbitrary nft failures, all hash map orders", "why_tests_cant": "Unbounded histories with failures at every point.", "anchors": ["letmeinfwd/src/firewall/nftables.rs", "letmeinfwd/src/firewall.rs"]}
{"id": "C23", "title": "A packet is let in only by the control port or a lease", "statement": "At every moment the letmein chain accepts a packet if and only if it goes to the control port with a configured protocol, or there is a lease for its source address (IPv4-mapped IPv6 addresses counting as IPv4), destination port and protocol.", "quantifier": "all packets, all histories", "why_tests_cant": "All packets times all histories.", "anchors": ["letmeinfwd/src/firewall/nftables.rs: gen_add_lease_cmds, statement_match_saddr, statement_match_dport"]}
{"id": "C24", "title": "Lease lifetime", "statement": "A lease granted or refreshed at time t is present at every moment before t+timeout, and is gone together with its kernel rules after the first maintenance run at or after t+timeout unless refreshed in between; a maintenance run never removes an unexpired lease.", "quantifier": "all timed histories with a non-decreasing clock", "why_tests_cant": "Unbounded timed histories.", "anchors": ["letmeinfwd/src/firewall.rs: Lease, prune_all_lease_timeouts", "letmeinfwd/src/firewall/nftables.rs: maintain, open_port"]}
{"id": "C25", "title": "Failures never leave a half-open firewall", "statement": "If opening a port fails, neither leases nor kernel rules change and the request is answered with nack; an ack means the packets of that address to that port are accepted; if removing expired rules fails the chain is rebuilt, and if that fails too the daemon stops and tries to flush the chain.", "quantifier": "all failure points of nft, all states", "why_tests_cant": "Every crash/failure point.", "anchors": ["letmeinfwd/src/firewall/nftables.rs: open_port, maintain", "letmeinfwd/src/server.rs: handle_message", "letmeinfwd/src/main.rs"]}
{"id": "C26", "title": "Start and stop leave a clean chain", "statement": "Starting the firewall daemon discards all old rules of its chain and leaves only the control port rules; a successful shutdown leaves no rule in the chain; other chains are untouched.", "quantifier": "all prior kernel rule sets", "why_tests_cant": "All previous states of the rule set.", "anchors": ["letmeinfwd/src/firewall/nftables.rs: new, shutdown, nftables_full_rebuild"]}
{"id": "C27", "title": "Rule identifiers are unique per address and port", "statement": "The rule comments used to find kernel handles are different for different address/protocol/port combinations and differ from those of the control port rules, so removing a lease never deletes the rule of another address or port.", "quantifier": "all pairs of IPv4/IPv6 addresses, protocols and ports", "why_tests_cant": "Injectivity over 2^128 x 2^17 values, involving IPv6 text compression.", "anchors": ["letmeinfwd/src/firewall/nftables.rs: gen_rule_comment, find_handle"]}
{"id": "C28", "title": "UDP peers are isolated and ordered", "statement": "Every datagram delivered to a UDP session was sent by exactly that peer, is delivered at most once and in arrival order, whatever the interleaving of peers, accepts, receives and disconnects; absent overflow or disconnect none of the peer's queued datagrams is lost.", "quantifier": "all interleavings and datagram sequences, any number of peers", "why_tests_cant": "Unbounded interleavings.", "anchors": ["letmein-proto/src/socket.rs: UdpDispatcherRx"]}
{"id": "C29", "title": "UDP memory is bounded", "statement": "At every moment at most max_nr_conn UDP connections exist and each has at most 4 queued datagrams, whatever traffic arrives.", "quantifier": "all traffic and schedules", "why_tests_cant": "Unbounded adversarial traffic.", "anchors": ["letmein-proto/src/socket.rs: UdpDispatcherRx::try_recv"]}
{"id": "C30", "title": "UDP traffic cannot crash the server", "statement": "No sequence of datagrams and schedule makes the UDP dispatcher panic.", "quantifier": "all traffic and schedules", "why_tests_cant": "Needs adversarial schedules; the release profile aborts on panic.", "anchors": ["letmein-proto/src/socket.rs: try_recv, disconnect asserts", "Cargo.toml: panic = abort"]}
{"id": "C31", "title": "A foreign datagram cannot disturb another peer's session", "statement": "A datagram of one peer (of whatever size) never makes a pending receive of another peer's session fail.", "quantifier": "all traffic and schedules", "why_tests_cant": "Cross-session interference over all schedules.", "anchors": ["letmein-proto/src/socket.rs: try_recv_from, recv_from"]}
{"id": "C32", "title": "UDP connections are accepted once", "statement": "Between two disconnects of a peer, accept returns that peer at most once, and it only returns peers that sent a datagram since.", "quantifier": "all traffic and schedules", "why_tests_cant": "Unbounded schedules.", "anchors": ["letmein-proto/src/socket.rs: try_accept"]}
{"id": "C33", "title": "Identifier text round trip", "statement": "Every user and resource identifier printed by the programs parses back to the same identifier, and the parser accepts exactly trimmed hexadecimal numbers below 2^32 (with optional plus sign).", "quantifier": "all 2^32 identifiers; all strings", "why_tests_cant": "Whole identifier range and all strings.", "anchors": ["letmein-proto/src/lib.rs: impl_id Display and FromStr"]}
{"id": "C34", "title": "gen-key output is a valid configuration entry", "statement": "The line printed by gen-key for any user and any random key, placed in the [KEYS] section of a configuration, loads as exactly that user and key.", "quantifier": "all users and all non-degenerate keys", "why_tests_cant": "2^256 keys.", "anchors": ["letmein/src/command/genkey.rs", "letmein-conf/src/lib.rs: get_keys", "letmein-conf/src/parse.rs: parse_hex", "letmein-conf/src/ini.rs"]}
{"id": "C35", "title": "Loaded keys are sane", "statement": "Every key of a loaded configuration is 32 bytes, is neither all zeros nor all ones, and is the one written in the file for that user; a configuration with an invalid entry is rejected.", "quantifier": "all configuration files", "why_tests_cant": "All files.", "anchors": ["letmein-conf/src/lib.rs: get_keys", "letmein-conf/src/parse.rs: parse_hex"]}
{"id": "C36", "title": "Loaded resources are sane", "statement": "Every resource of a loaded configuration has exactly the port written for it, at least one of TCP/UDP (TCP if none was written), and no two resources share a port or an identifier; a resource with a users option is never unrestricted.", "quantifier": "all configuration files", "why_tests_cant": "All files; a parsing slip would silently widen access.", "anchors": ["letmein-conf/src/lib.rs: get_resources", "letmein-conf/src/parse_items.rs"]}
{"id": "C37", "title": "Configuration load is atomic and variant-specific", "statement": "If loading a configuration fails, the previous configuration is unchanged; a server configuration that is missing or malformed is always rejected.", "quantifier": "all files and all prior configurations", "why_tests_cant": "All files and failure points.", "anchors": ["letmein-conf/src/lib.rs: Config::load, load_ini"]}
{"id": "C38", "title": "Configuration meaning is independent of hash order", "statement": "Whether a configuration loads, and the keys, resources and resource-by-port lookups it yields, do not depend on the random iteration order of hash maps.", "quantifier": "all files and all iteration orders", "why_tests_cant": "Iteration order is random per process; tests see one order.", "anchors": ["letmein-conf/src/lib.rs: get_keys, get_resources, resource_id_by_port", "letmein-conf/src/ini.rs"]}
{"id": "C39", "title": "Duplicate definitions are rejected", "statement": "A configuration that defines the same user key or the same resource identifier twice is rejected.", "quantifier": "all configuration files", "why_tests_cant": "All files.", "anchors": ["letmein-conf/src/lib.rs: get_keys 'Multiple definitions'", "letmein-conf/src/ini.rs: parse_str"]}
{"id": "C40", "title": "Ini parser meaning", "statement": "The ini parser never panics and yields exactly: for each section header (unique, non-empty) the options below it with their last value, ignoring blank and comment lines; text outside a section, lines without '=' and lines starting with '=' are rejected.", "quantifier": "all texts", "why_tests_cant": "All texts.", "anchors": ["letmein-conf/src/ini.rs: parse_str, get"]}
{"id": "C41", "title": "Number of simultaneous sessions is limited", "statement": "letmeind and letmeinfwd never run more simultaneous connection handlers than --num-connections.", "quantifier": "all accept/finish schedules", "why_tests_cant": "Concurrency bound over all schedules.", "anchors": ["letmeind/src/main.rs: async_main semaphore", "letmeinfwd/src/main.rs: async_main semaphore"]}
{"id": "C42", "title": "Firewall socket peer check", "statement": "In production mode the firewall daemon handles a unix socket connection only if the peer's PID is known and equals the PID in letmeind's PID file and its UID and GID are those of letmeind.", "quantifier": "all peer credentials and PID file contents", "why_tests_cant": "All credentials and file contents.", "anchors": ["letmeinfwd/src/server.rs: accept, get_letmeind_pid", "letmeinfwd/src/uid_gid.rs"]}
{"id": "C43", "title": "Rejected connections do not stop the daemons", "statement": "A rejected or failed incoming connection only affects that connection; the daemon keeps serving others.", "quantifier": "all connection sequences", "why_tests_cant": "Availability over all histories.", "anchors": ["letmeind/src/main.rs", "letmeinfwd/src/main.rs", "letmeind/src/server.rs: accept", "letmeinfwd/src/server.rs: accept"]}
{"id": "C44", "title": "Listening sockets match the configuration", "statement": "The server listens on exactly the configured transports: without systemd sockets it binds every configured transport and no other; with systemd sockets it never uses a transport that is not configured and rejects duplicates.", "quantifier": "all socket sets handed over by systemd, all port configurations", "why_tests_cant": "All socket combinations.", "anchors": ["letmeind/src/server.rs: Server::new", "letmein-systemd/src/lib.rs"]}
{"id": "C45", "title": "Seccomp allow lists", "statement": "With seccomp=kill each program can only issue the syscalls of its feature list: letmeind can neither execute programs nor open files nor create sockets other than unix/inet; adding a feature to the list never forbids a syscall another feature allowed.", "quantifier": "all syscalls and arguments, all feature lists", "why_tests_cant": "All syscalls times arguments.", "anchors": ["letmein-seccomp/src/lib.rs: compile_for_arch", "letmeind/src/seccomp.rs", "letmeinfwd/src/seccomp.rs", "letmein/src/seccomp.rs"]}
{"id": "C46", "title": "User and group lookup", "statement": "The UID (GID) used for letmeind is the one in the first line of the passwd (group) database whose name field is exactly the requested name; malformed data yields an error, never another account's id.", "quantifier": "all database contents and names", "why_tests_cant": "All file contents.", "anchors": ["letmeinfwd/src/uid_gid.rs: os_get_uid, os_get_gid"]}
{"id": "C47", "title": "End-to-end: an open port implies a recent authenticated knock", "statement": "In the composed system of letmeind sessions, firewall daemon, kernel chain and network attacker, whenever the chain accepts a packet from some source to a non-control port, there was a session from that source address, authenticated for a user allowed on a resource with that port and protocol, whose opening or refresh happened less than the lease timeout before the last maintenance run (or after it).", "quantifier": "all executions of the composed system, any number of sessions and attackers", "why_tests_cant": "Whole-system invariant over all interleavings and failures.", "anchors": ["letmeind/src/protocol.rs", "letmeinfwd/src/server.rs", "letmeinfwd/src/firewall/nftables.rs"]}
{"id": "C48", "title": "Random tokens are never degenerate", "statement": "A salt, challenge or generated key returned by the random generator wrapper is never all zeros, all ones or any repeated byte, and has the requested length; otherwise the program stops.", "quantifier": "all outputs of the operating system generator, all token sizes", "why_tests_cant": "All generator outputs.", "anchors": ["letmein-proto/src/lib.rs: secure_random"]}
{"id": "C49", "title": "Numeric and boolean option parsing", "statement": "Ports, durations in whole seconds, booleans, error policies and seccomp modes parse to exactly the documented values and everything else is rejected; no text makes the option parsers panic or yield an out-of-range port.", "quantifier": "all texts", "why_tests_cant": "All texts.", "anchors": ["letmein-conf/src/parse.rs", "letmein-conf/src/lib.rs: ErrorPolicy::from_str, Seccomp::from_str, get_port"]}
{"id": "C50", "title": "The firewall daemon never panics", "statement": "No sequence of socket messages, clock readings, nft failures, external changes of other chains and shutdown requests makes the firewall daemon panic.", "quantifier": "all histories of the firewall daemon", "why_tests_cant": "Unbounded histories; the release profile aborts on panic, which would leave opened ports open.", "anchors": ["letmeinfwd/src/firewall/nftables.rs: open_port, maintain, shutdown", "letmeinfwd/src/server.rs: handle_message", "letmein-fwproto/src/lib.rs"]}
{"id": "C51", "title": "ComeIn means that the port is open", "statement": "In the composed system, when the server sends a ComeIn for a user and resource, the firewall daemon has acknowledged a request for the session's peer and the port and protocols of a resource granted to that user, and packets of the peer to it are accepted from then until a maintenance run at or after the end of the lease, whatever the other sessions do.", "quantifier": "all executions of the composed system", "why_tests_cant": "Whole-system property over all interleavings and failures.", "anchors": ["letmeind/src/protocol.rs: run", "letmeind/src/firewall_client.rs", "letmeinfwd/src/server.rs: handle_message", "letmeinfwd/src/firewall/nftables.rs"]}
{"id": "C52", "title": "The loaded configuration is what the file says", "statement": "Loading a well-formed configuration file succeeds if and only if every option in it has a documented meaning and no identifiers or ports clash; the loaded configuration then has exactly the documented value, or the documented default, for every setting, and no other configuration fits the file.", "quantifier": "all configuration files, both program variants, all hash iteration orders", "why_tests_cant": "All files.", "anchors": ["letmein-conf/src/lib.rs: Config::load, load_ini, get_*", "letmein-conf/src/ini.rs", "letmein-conf/src/parse.rs", "letmein-conf/src/parse_items.rs"]}
{"id": "C53", "title": "Orderly end of the daemons", "statement": "When a daemon is told to terminate it ends orderly: letmeind exits with success after SIGTERM and with an error otherwise, never by a crash; letmeinfwd always removes its rules first and reports success exactly if it was terminated by SIGTERM and the rules were removed.", "quantifier": "all histories of connections, session results and signals", "why_tests_cant": "Depends on the point in time at which the signal arrives, in all histories.", "anchors": ["letmeind/src/main.rs: async_main", "letmeind/src/server.rs: Drop for Connection", "letmeinfwd/src/main.rs: async_main"]}
{"id": "C54", "title": "A legitimate knock opens the port", "statement": "If the files of client and server agree about a user, key, resource and port, the host can be resolved and nothing fails, then whatever the interleaving of client, server session, firewall daemon and unrelated activity, every execution of the knock ends after a bounded number of steps with success reported by the client, and from the acknowledgement until the lease expires the firewall accepts packets of the client's address to the resource's port by its transports.", "quantifier": "all configuration files, keys, nonces, salts, interleavings, previous histories of the firewall daemon and requests of other sessions", "why_tests_cant": "Needs all files, all random values and all interleavings of four processes.", "anchors": ["letmein/src/command/knock.rs", "letmeind/src/protocol.rs: run", "letmeind/src/firewall_client.rs", "letmeinfwd/src/server.rs: handle_message", "letmeinfwd/src/firewall/nftables.rs", "letmein-conf/src/lib.rs: Config::load"]}
{"id": "C55", "title": "Only what the server's file says is open", "statement": "With both daemons started from the same configuration file, every packet the firewall chain accepts goes to the control port of the file, or to a port and transport of a resource in the file that is open to a user with a key in the file, and the packet's source has proved to know this key in a completed session whose lease has not expired.", "quantifier": "all configuration files, executions with any number of clients, sessions and attackers, histories", "why_tests_cant": "Security property of the whole system over all files and executions.", "anchors": ["letmein-conf/src/lib.rs: Config::load", "letmeind/src/protocol.rs: run", "letmeinfwd/src/server.rs: handle_message", "letmeinfwd/src/firewall/nftables.rs"]}
{"id": "C56", "title": "An expired lease is closed soon", "statement": "While the firewall maintenance runs on its five-second schedule, every packet the chain accepts that is not for the control port comes from a host for which a request was acknowledged less than the configured lease time plus five seconds plus the scheduling delay ago.", "quantifier": "all configurations, histories of requests and maintenance runs, schedules with any delay", "why_tests_cant": "A bound on time over all interleavings of requests and maintenance runs.", "anchors": ["letmeinfwd/src/main.rs: FW_MAINTAIN_PERIOD, firewall task", "letmeinfwd/src/firewall/nftables.rs: maintain"]}
{"id": "C57", "title": "A daemon is confined before it serves anyone", "statement": "On a platform with seccomp support, whenever letmeind or letmeinfwd starts to handle connections, this is the last step of a successful start, and the process already runs under the seccomp filter of the mode that the command line or else the configuration file selects: with kill exactly the calls the daemon may make are allowed and every other call kills it, with log nothing is killed, with off there is no filter.", "quantifier": "all command lines, configuration files, systems (results of every call the start makes), platforms with seccomp support, system calls and arguments", "why_tests_cant": "the order of the steps of the start matters for every combination of failures, and a filter has to be judged on all calls and arguments", "anchors": ["letmeind/src/main.rs:async_main", "letmeinfwd/src/main.rs:async_main", "letmeind/src/seccomp.rs", "letmeinfwd/src/seccomp.rs"]}
{"id": "C58", "title": "A failed start of the firewall daemon leaves the firewall as it was", "statement": "If letmeinfwd does not start, the firewall is as before. (Refuted: a failure after the initialisation of the firewall leaves the control port rules behind. What holds: however far the start comes, the firewall is as before, or all other chains are as before and the chain of letmein accepts the control port and nothing else.)", "quantifier": "all command lines, files, firewall states, results of all system calls during the start", "why_tests_cant": "failures at every point of the start have to be considered", "anchors": ["letmeinfwd/src/main.rs:async_main", "letmeinfwd/src/firewall/nftables.rs:NftFirewall::new"]}
{"id": "C59", "title": "The unix socket of the firewall daemon is never open to strangers", "statement": "At the moment the unix socket is created, its directory already belongs to root and the group letmeind with mode 0750, and this does not change any more; when letmeinfwd serves on a socket it made itself, the socket belongs to root and the group letmeind with mode 0660.", "quantifier": "all starts (also failing ones), all command lines without the test mode, all account files and results of system calls", "why_tests_cant": "there must be no window of time, in any run", "anchors": ["letmeinfwd/src/main.rs:make_run_subdir", "letmeinfwd/src/main.rs:set_owner_mode", "letmeinfwd/src/server.rs:FirewallServer::new"]}
{"id": "C60", "title": "The firewall daemon recognises a running letmeind", "statement": "When letmeind serves, its PID file contains its process number; a letmeinfwd with the same run directory accepts a connection exactly if it comes from that process running as user and group letmeind.", "quantifier": "all starts of letmeind, all process numbers that fit into 31 bits, all account files, all credentials of connections", "why_tests_cant": "two programs have to agree about the content of a file for all process numbers and at all times at which letmeind serves", "anchors": ["letmeind/src/main.rs:make_pidfile", "letmeinfwd/src/server.rs:FirewallServer::accept", "letmeinfwd/src/server.rs:get_letmeind_pid"]}
{"id": "C61", "title": "A daemon that says it is ready serves", "statement": "If a daemon notifies systemd that it is ready, it serves. (Refuted: readiness is announced before the PID file is written and the seccomp filter is installed; both can fail. What holds: a daemon that says it is ready has a valid configuration and its listeners exist; the firewall of letmeinfwd is initialised.)", "quantifier": "all starts, all results of system calls", "why_tests_cant": "all orders of success and failure of the steps of the start", "anchors": ["letmeind/src/server.rs:Server::new", "letmeinfwd/src/server.rs:FirewallServer::new", "letmeind/src/main.rs:async_main", "letmeinfwd/src/main.rs:async_main"]}
{"id": "C62", "title": "A daemon starts exactly if the system and the configuration allow it", "statement": "letmeind without sockets from systemd starts exactly if it can use its directory, its file is a valid configuration, the port can be bound for each configured transport, the PID file can be written and the filter can be installed. letmeinfwd starts exactly if the accounts of letmeind exist, it can use and protect its directory, its file is a valid configuration that names an existing chain, nft works, it gets its socket, the PID file can be written and the filter can be installed. A start never panics, unless signal handlers cannot be registered.", "quantifier": "all command lines, configuration files, account files, firewall states and results of system calls", "why_tests_cant": "an equivalence over all files and all combinations of failures", "anchors": ["letmeind/src/main.rs:async_main", "letmeinfwd/src/main.rs:async_main"]}
{"id": "C63", "title": "The client does what its command line says", "statement": "The client starts exactly if all texts of its options are valid, its file is a configuration (or no configuration file at all) and its filter can be installed; it then knocks or makes a key with exactly these options. It never asks a DNS service that --dns and --dns-crypt, or their defaults, do not name. It runs under the filter of the mode that --seccomp or else the file selects. Its start never panics.", "quantifier": "all option texts, files, platforms, hosts and answers of resolvers and servers", "why_tests_cant": "all texts and all histories of answers", "anchors": ["letmein/src/main.rs:parse_dns", "letmein/src/main.rs:parse_dns_crypt", "letmein/src/main.rs:async_main", "letmein/src/resolver.rs:resolve", "letmein/src/seccomp.rs"]}
{"id": "C64", "title": "An address given as text is the address that is used", "statement": "A text is accepted as an IP address exactly if it is one (dotted decimal without leading zeros, or the IPv6 notation of RFC 4291), and it denotes one address only. A printed address denotes the printed address. A client that is given an address as its server asks no name service and connects to no address but this one; without a choice of the family it uses the family of the address, and a knock over the other family is an error without any effect.", "quantifier": "all texts, all addresses, all client options, all behaviours of the network", "why_tests_cant": "all texts have to be considered, in both directions; and all histories of the client", "anchors": ["letmein/src/resolver.rs:resolve", "letmein/src/resolver.rs:is_ipv4_addr", "letmein/src/resolver.rs:is_ipv6_addr", "letmein/src/command/knock.rs:run_knock", "letmeinfwd/src/firewall/nftables.rs:statement_match_saddr"]}
{"id": "C65", "title": "A started daemon serves what its file says, and a start touches nothing else", "statement": "A letmeind that serves has the configuration of its file; without systemd it listens on exactly the configured port with exactly the configured transports, and with sockets of systemd only with configured transports and it has announced that it is ready. A letmeinfwd that serves has the configuration of its file, the user and group numbers of letmeind, and a firewall freshly initialised from its configuration. Successful or not, the start of letmeind touches nothing but its directory and PID file; the start of letmeinfwd touches nothing but its directory, socket and PID file, and removes nothing but an old socket at the path of its socket.", "quantifier": "all options, files and answers of the system, and all points at which a start can fail", "why_tests_cant": "all combinations of failures and states of the file system would have to be tried", "anchors": ["letmeind/src/main.rs:async_main", "letmeind/src/main.rs:make_pidfile", "letmeind/src/server.rs:Server::new", "letmeinfwd/src/main.rs:async_main", "letmeinfwd/src/main.rs:make_pidfile", "letmeinfwd/src/server.rs:FirewallServer::new"]}
{"id": "C66", "title": "A UDP receive is woken for a datagram that is already there", "statement": "A session that waits for a datagram of its peer gets it once the daemon has taken it from the socket, without any further traffic. (Refuted: if the receive of another session is woken and then fails, for instance because of a datagram of the wrong size, the wake-up can be lost. What holds: as long as no receive fails, the session waits for at most as many wake-ups as there are receives in front of it, and somebody can always go on.)", "quantifier": "all arrivals, all schedules of the tasks, all numbers of sessions, timeouts and ends of sessions", "why_tests_cant": "lost wake-ups appear only under particular interleavings of several tasks, the readiness of a socket, two watch channels and a lock", "anchors": ["letmein-proto/src/socket.rs:UdpDispatcher::recv_from", "letmein-proto/src/socket.rs:UdpDispatcherRx::try_recv", "letmein-proto/src/socket.rs:UdpDispatcherRx::try_recv_from", "letmein-proto/src/socket.rs:UdpDispatcherRx::recv_notify"]}
{"id": "C67", "title": "A new UDP peer is accepted without further traffic", "statement": "A peer whose datagram the daemon has taken from the socket is accepted, without any further traffic. (Refuted: if two peers knock while the accepting task sleeps for its 10 ms and the receives of other sessions read their datagrams, the two notifications become one, and the second peer is not accepted before something else arrives. What holds: as long as no call fails and at most one new peer at a time is waiting, the accepting task can always go on and then accepts.)", "quantifier": "all arrivals, all schedules of the tasks, all numbers of sessions, timeouts and ends of sessions", "why_tests_cant": "the notification is lost only under a particular interleaving of three tasks", "anchors": ["letmein-proto/src/socket.rs:UdpDispatcher::accept", "letmein-proto/src/socket.rs:UdpDispatcherRx::try_accept", "letmein-proto/src/socket.rs:UdpDispatcherRx::try_recv"]}
{"id": "C68", "title": "A legitimate knock over byte streams succeeds however the bytes are cut", "statement": "Client, letmeind and letmeinfwd that agree about a knock bring it to a successful end, with the port open, however TCP and the unix socket cut the bytes of their messages into pieces and however the steps of the three are interleaved with each other and with what others do at the firewall. No piece is lost, taken twice or taken for a part of another message.", "quantifier": "all sizes of all pieces written and read, all interleavings, all undisturbing activity of others, all histories of the firewall daemon", "why_tests_cant": "the ways of cutting and interleaving are too many to try", "anchors": ["letmein-proto/src/socket.rs:NetSocket::send", "letmein-proto/src/socket.rs:NetSocket::recv", "letmein-fwproto/src/lib.rs:FirewallMessage::send", "letmein-fwproto/src/lib.rs:FirewallMessage::recv", "letmein/src/command/knock.rs:run_knock", "letmeind/src/protocol.rs:Protocol::run", "letmeinfwd/src/server.rs:FirewallConnection::handle_message"]}
{"id": "C69", "title": "The options for the address families decide what a knock needs and what it opens", "statement": "A legitimate client knocks with any combination of --ipv4 and --ipv6. Each family may be reachable or not. With options, the command reports success exactly if every family asked for is reachable; without one, exactly if IPv6 or IPv4 is reachable (only the one of the address, if the host is a literal). The port is opened for exactly the addresses of the reachable families, except that with both options a dead IPv6 path ends the command before IPv4. No execution hangs.", "quantifier": "all combinations of options, all reachable and unreachable families, all agreeing configurations, all interleavings of the client with the sessions of the server", "why_tests_cant": "the two knocks of one command share the state of the client, and their outcomes and interleavings have to be considered together", "anchors": ["letmein/src/command/knock.rs:run_knock", "letmein/src/command/knock.rs:AddrMode", "letmein/src/command/knock.rs:KnockSeq::knock_sequence", "letmein/src/client.rs:Client::new", "letmeind/src/protocol.rs:Protocol::run"]}
{"id": "C70", "title": "A time in the configuration file is the time that the daemon uses", "statement": "The timeouts of the configuration file are numbers of seconds: whole numbers, or decimal numbers with point and exponent. Every number from 0 to 4294967295 is accepted, and the duration is the number up to half a nanosecond and a relative error of 2^-53; whole numbers of nanoseconds up to 52 days are exact; a larger number never gives a shorter time. Larger and negative numbers are rejected, texts that are not numbers (also inf and nan) as well, and no text makes the conversion panic.", "quantifier": "all texts up to 60000 characters, all rational numbers they denote", "why_tests_cant": "rounding in two steps (decimal to binary, binary to nanoseconds) goes wrong only at particular values among infinitely many", "anchors": ["letmein-conf/src/parse.rs:parse_duration", "letmein-conf/src/parse.rs:parse_f64", "letmein-conf/src/lib.rs:get_control_timeout", "letmein-conf/src/lib.rs:get_nft_timeout"]}
{"id": "C71", "title": "Tokens are standard HMAC-SHA3-256, so other implementations can interoperate", "statement": "The token that a client puts into a knock or response is HMAC-SHA3-256 (FIPS 198-1, FIPS 202) of the protected text of the message under the 32-byte key, and the server accepts exactly this token.", "quantifier": "all messages, keys and challenges; all lengths of data for the hash function", "why_tests_cant": "test vectors cover a few messages; a wrong padding, rotation or constant shows only for particular lengths or values", "anchors": ["letmein-proto/src/lib.rs:Message::authenticate", "letmein-proto/src/lib.rs:Message::check_auth_ok", "letmein-proto/src/lib.rs:Message::check_auth_ok_no_challenge", "letmein-proto/src/lib.rs:Message::generate_auth", "letmein-proto/src/lib.rs:Message::generate_auth_no_challenge"]}
{"id": "C72", "title": "A legitimate knock over UDP succeeds while nobody else knocks over UDP", "statement": "Client, letmeind and letmeinfwd that agree about a knock, with the client using UDP, bring it to a successful end with the port open, in whatever order the tasks of the two UDP dispatchers run and are woken and however late the datagrams arrive, provided that the network delivers each datagram once and no other peer uses the UDP port meanwhile. letmeind has then served exactly one more connection and tracks none, whatever it has served before. No task waits for ever, nothing panics, and the number of steps is bounded.", "quantifier": "all interleavings of client, network, accept task, session and firewall daemon, all wake-ups, all earlier connections, all histories of the firewall daemon", "why_tests_cant": "a datagram can be read by the accept task or by the session, and each order of reads, notifications and sleeps needs its own wake-up", "anchors": ["letmein-proto/src/socket.rs:UdpDispatcher::accept", "letmein-proto/src/socket.rs:UdpDispatcher::recv_from", "letmein-proto/src/socket.rs:UdpDispatcher::send_to", "letmein-proto/src/socket.rs:UdpDispatcher::disconnect", "letmein-proto/src/socket.rs:NetSocket::close", "letmein/src/client.rs:Client::new", "letmein/src/command/knock.rs:run_knock", "letmeind/src/server.rs:Server::accept", "letmeind/src/protocol.rs:Protocol::run"]}
{"id": "C73", "title": "A peer without a key learns nothing about the configuration", "statement": "Two servers with the same error policy may differ in users, keys, resources, permissions and control port. A peer whose first message is not a knock with a valid token of a configured user of either server gets the same from both: every sequence of exchanges that is possible with the one, down to every byte sent and whether the connection is closed, is possible with the other. In particular the answer to a knock with a wrong token does not tell whether the user or the resource exists.", "quantifier": "all pairs of configurations with the same error policy, all token functions, all sequences of received bytes, random numbers and failures", "why_tests_cant": "it is a statement about pairs of executions with arbitrary configurations; a test compares a few", "anchors": ["letmeind/src/protocol.rs:Protocol::run", "letmeind/src/protocol.rs:Protocol::recv_msg", "letmeind/src/protocol.rs:Protocol::send_go_away", "letmein-proto/src/lib.rs:Message::check_auth_ok_no_challenge"]}
{"id": "C74", "title": "Keys are used for nothing but the tokens", "statement": "If the bytes of the configured keys are replaced by others, while every text keeps its token, then nothing changes that the client or the server sends to the network, to letmeinfwd or to a name server, no number of random bytes that they ask for, and no result. So nothing about a key leaves the programs except what its tokens say.", "quantifier": "all pairs of configurations that differ in the key bytes, all token functions, all executions of client and server session", "why_tests_cant": "that data does not flow somewhere is a statement about pairs of executions; tests see single ones", "anchors": ["letmeind/src/protocol.rs:Protocol::run", "letmein/src/command/knock.rs:run_knock", "letmein/src/command/knock.rs:KnockSeq::knock_sequence", "letmein-proto/src/lib.rs:Message::authenticate"]}
{"id": "C75", "title": "Every connection gets exactly one session, in order", "statement": "letmeind starts exactly one session for each connection: the sessions of TCP connections are started in the order in which the connections were made, and those of UDP peers in the order in which they were found; none is lost when connections of both transports arrive at the same time. While nothing fails, every waiting connection gets its session by letmeind's own steps, however many sessions run, at most five steps per connection. letmeind only ends because of a signal or because accepting a connection failed.", "quantifier": "all histories of arriving connections of both transports, of the two accept tasks, of the handler task, of ending sessions, signals and failing system calls, in any interleaving, any number of permits", "why_tests_cant": "losing a connection needs a particular interleaving of two join handles in a select; tests take one connection at a time", "anchors": ["letmeind/src/server.rs:Server::accept", "letmeind/src/server.rs:spawn_tcp_accept", "letmeind/src/server.rs:spawn_udp_accept", "letmeind/src/main.rs:async_main"]}
{"id": "C76", "title": "A legitimate knock over TCP succeeds while letmeind serves others", "statement": "If client and server agree about the knock and the client uses TCP, the knock succeeds and opens the port, although any number of other connections of both transports arrive, wait before it, are served or hang at the same time, as long as no accept call fails.", "quantifier": "all interleavings of the client, its session, letmeind's accept tasks, other connections, the firewall daemon and what other sessions ask of it; any state in which letmeind may be when the client connects", "why_tests_cant": "the number of interleavings is unbounded; a test server has nothing else to do", "anchors": ["letmeind/src/main.rs:async_main", "letmeind/src/server.rs:Server::accept", "letmeind/src/protocol.rs:Protocol::run", "letmein/src/command/knock.rs:run_knock", "letmeinfwd/src/server.rs:FirewallConnection::handle_message"]}
{"id": "C77", "title": "A legitimate knock over UDP succeeds while letmeind serves others", "statement": "If client and server agree about the knock and the client uses UDP, the knock succeeds and opens the port, although others connect by TCP and have UDP sessions of their own at the same time, as long as their datagrams are not too short, at most four datagrams of a peer are unread and one UDP connection is left free.", "quantifier": "all interleavings of the client, its session, letmeind's accept tasks and its UDP dispatcher, other connections, datagrams and sessions, the firewall daemon and what other sessions ask of it; any order in which the map of connections is walked; any number of others before and at the same time", "why_tests_cant": "the number of interleavings is unbounded, and which task reads whose datagram depends on the schedule", "anchors": ["letmein-proto/src/socket.rs:UdpDispatcher", "letmein-proto/src/socket.rs:UdpDispatcherRx", "letmeind/src/main.rs:async_main", "letmeind/src/server.rs:Server::accept", "letmeind/src/protocol.rs:Protocol::run", "letmein/src/command/knock.rs:run_knock"]}
{"id": "C78", "title": "What is said about a rejected configuration file does not reveal keys", "statement": "When letmeind, letmeinfwd or letmein reject a configuration file, the error they end with depends on the text given as a key only through what is wrong with it (nothing, zeros only, ones only, not ASCII, its wrong length, or a wrong digit). Two files that differ only in that text get the same error. A file that is not well-formed is reported with its path and with none of its lines.", "quantifier": "all configuration files, well-formed or not, all texts of keys, all orders in which the maps are gone through, all three programs", "why_tests_cant": "it is a statement about pairs of files: no part of a key may reach any of the many error texts, some of which quote the file", "anchors": ["letmein-conf/src/lib.rs:Config::load", "letmein-conf/src/lib.rs:get_keys", "letmein-conf/src/lib.rs:get_resources", "letmein-conf/src/parse.rs:parse_hex", "letmein-conf/src/ini.rs:Ini::parse_str", "letmeind/src/main.rs:async_main"]}
{"id": "C79", "title": "A legitimate knock over TCP succeeds in any segmentation while letmeind serves others", "statement": "If client and server agree about the knock and the client uses TCP, the knock succeeds and opens the port, although its bytes are delivered in pieces of any size, before or after letmeind accepts the connection, and any number of other connections arrive, wait before it, are served or hang at the same time, as long as no accept call fails.", "quantifier": "all sizes of the pieces; all interleavings of the client, its session, letmeind's accept tasks, other connections, the firewall daemon and what other sessions ask of it; any state in which letmeind may be when the client connects", "why_tests_cant": "the pieces and the interleavings multiply; on a loopback interface a message arrives in one piece at an idle server", "anchors": ["letmein-proto/src/socket.rs:NetSocket", "letmeind/src/main.rs:async_main", "letmeind/src/server.rs:Server::accept", "letmeind/src/protocol.rs:Protocol::run", "letmein/src/command/knock.rs:run_knock", "letmeinfwd/src/server.rs:FirewallConnection::handle_message"]}
{"id": "C80", "title": "Under fair scheduling a legitimate knock over TCP ends", "statement": "If client and server agree about the knock and the client uses TCP, then in every infinite execution in which neither the client, its session, letmeinfwd, the kernel nor letmeind's accepting tasks are passed over for ever, the knock comes to its successful end and the port is open at some time, whatever others do in the meantime and however many connections they make. From every state such executions exist.", "quantifier": "all infinite executions, with any sizes of the pieces, any interleaving and an unending stream of other connections of both transports, that are fair; any state in which letmeind may be when the client connects", "why_tests_cant": "it is a statement about infinite executions: a schedule could starve the client for ever without any finite test seeing more than a delay", "anchors": ["letmein-proto/src/socket.rs:NetSocket", "letmeind/src/main.rs:async_main", "letmeind/src/server.rs:Server::accept", "letmeind/src/protocol.rs:Protocol::run", "letmein/src/command/knock.rs:run_knock", "letmeinfwd/src/server.rs:FirewallConnection::handle_message"]}
{"id": "C81", "title": "nft is given exactly the intended commands, whatever the configured names contain", "statement": "Every document that letmeinfwd hands to nft is UTF-8 encoded JSON that has one reading only, and that reading is the list of commands that letmeinfwd means: quotation marks, backslashes, control characters and braces in the configured table and chain names cannot add, change or hide a command.", "quantifier": "all configuration files and so all names of tables and chains, all batches of commands (additions, removals, rebuilds), all leases and addresses, all readers that follow RFC 8259 and libnftables-json(5)", "why_tests_cant": "the names are arbitrary texts and a reader may accept white space, any order of members and any escape, so neither the documents nor their readings can be enumerated", "anchors": ["letmeinfwd/src/firewall/nftables.rs:nftables_apply_batch", "letmeinfwd/src/firewall/nftables.rs:gen_add_lease_cmd", "letmeinfwd/src/firewall/nftables.rs:statement_match_saddr", "letmeinfwd/src/firewall/nftables.rs:statement_match_dport", "letmein-conf/src/lib.rs:get_nft_table"]}
{"id": "C82", "title": "Under fair scheduling a legitimate knock over UDP ends", "statement": "If client and server agree about the knock and the client uses UDP, then in every infinite execution in which neither the client, its session, letmeinfwd, the network, letmeind's socket nor its accepting tasks are passed over for ever, the knock comes to its successful end and the port is open at some time, while others send datagrams, connect and have sessions without end within the limits of the dispatcher. From every state that a knock can reach such executions exist.", "quantifier": "all infinite executions, with any interleaving, any walks through the map of connections and an unending stream of datagrams and connections of others, that are fair; any state that the knock may have reached before", "why_tests_cant": "it is a statement about infinite executions: a schedule or an order of the map could starve the client for ever without any finite test seeing more than a delay", "anchors": ["letmein-proto/src/socket.rs:UdpDispatcher", "letmein-proto/src/socket.rs:NetSocket", "letmeind/src/main.rs:async_main", "letmeind/src/server.rs:Server::accept", "letmeind/src/protocol.rs:Protocol::run", "letmein/src/command/knock.rs:run_knock", "letmeinfwd/src/server.rs:FirewallConnection::handle_message"]}
{"id": "C83", "title": "Simultaneous legitimate knocks all succeed", "statement": "Any number of clients that agree with the server about their knocks may knock at the same time, also for the same resource, as the same user or from the same address: no client can block or spoil the knock of another, all together take at most 19 steps each, every client that is not through can take its next step, and at the end every client has reported success and its port is open until the lease expires.", "quantifier": "any number of clients with any configurations that agree with the server, any interleaving of all clients, sessions and the firewall daemon, any history of the firewall daemon and anything that others do to it in between", "why_tests_cant": "the interleavings of an arbitrary number of concurrent handshakes that share the leases and the chain cannot be enumerated", "anchors": ["letmeind/src/main.rs:async_main", "letmeind/src/protocol.rs:Protocol::run", "letmeind/src/firewall_client.rs:FirewallClient", "letmeinfwd/src/server.rs:FirewallConnection::handle_message", "letmeinfwd/src/main.rs:async_main", "letmein/src/command/knock.rs:run_knock"]}
{"id": "C84", "title": "Whatever others remove from letmein's chain, only live grants are open", "statement": "If other programs delete rules from letmein's chain, reorder them, flush the chain, remove it or reload the whole ruleset without letmein's rules, then the chain still accepts only packets to the control port and packets for which a request was acknowledged whose lease time was not over at a maintenance run since; letmeinfwd does not panic; and a successful maintenance run that finds a rule of an expired lease missing brings back everything that should be open.", "quantifier": "all configurations and rulesets, all histories of requests, maintenance runs and shutdowns with any results of nft, with any removals from the chain by others in between, all packets", "why_tests_cant": "the removals may hit any subset of the rules between any two steps, including one of two equal rules, and the daemon finds rules by their comments only", "anchors": ["letmeinfwd/src/firewall/nftables.rs:NftFirewall::maintain", "letmeinfwd/src/firewall/nftables.rs:nftables_remove_leases", "letmeinfwd/src/firewall/nftables.rs:nftables_full_rebuild", "letmeinfwd/src/firewall/nftables.rs:ListedRuleset"]}
{"id": "C85", "title": "A rewrite of letmein's chain by others is noticed", "statement": "After others have flushed letmein's chain or restored a saved ruleset, an acknowledged request is open, the control port is open again after the next maintenance run, and restored rules of leases that have ended are removed.", "quantifier": "all histories of requests and maintenance runs with rewrites of the chain by others in between", "why_tests_cant": "it depends on what was flushed or restored between which steps of the daemon", "anchors": ["letmeinfwd/src/firewall/nftables.rs:NftFirewall::open_port", "letmeinfwd/src/firewall/nftables.rs:NftFirewall::maintain", "letmeinfwd/src/firewall.rs:prune_all_lease_timeouts"]}
{"id": "C86", "title": "What others remove between two nft calls of a maintenance run opens nothing", "statement": "letmeinfwd first lists the ruleset, then deletes rules by number, then rebuilds its chain if that fails. Whatever rules others take away between these calls, a port is open only for hosts whose request was acknowledged and whose lease has not ended, and the daemon does not panic.", "quantifier": "all histories of requests, maintenance runs and removals by others, also between the nft calls of one run, and all listings that show the ruleset", "why_tests_cant": "the race needs another program to act at one of many moments within a run", "anchors": ["letmeinfwd/src/firewall/nftables.rs:ListedRuleset", "letmeinfwd/src/firewall/nftables.rs:ListedRuleset::find_handle", "letmeinfwd/src/firewall/nftables.rs:nftables_remove_leases", "letmeinfwd/src/firewall/nftables.rs:NftFirewall::maintain"]}
{"id": "C87", "title": "A reload of the ruleset between listing and deletion is noticed", "statement": "If the whole ruleset is loaded again between the listing and the deletion of rules, the rules of leases that have ended are closed and the others stay open.", "quantifier": "all histories, listings and reloads with the same rules in between", "why_tests_cant": "it depends on the numbers that the kernel gives to the reloaded rules", "anchors": ["letmeinfwd/src/firewall/nftables.rs:ListedRuleset::find_handle", "letmeinfwd/src/firewall/nftables.rs:gen_delete_lease_cmds", "letmeinfwd/src/firewall/nftables.rs:nftables_remove_leases"]}
{"id": "C88", "title": "Rule comments are short and plain", "statement": "Every rule that letmein puts into its chain has a comment of at most 74 letters, digits, dots, colons and slashes, so nft, which refuses comments of more than 128 bytes, never refuses a rule because of it.", "quantifier": "all histories, addresses and ports", "why_tests_cant": "the longest address and port must be known; a test tries some addresses", "anchors": ["letmeinfwd/src/firewall/nftables.rs:gen_rule_comment", "letmeinfwd/src/firewall/nftables.rs:gen_add_lease_cmd"]}
{"id": "C89", "title": "Whenever the firewall daemon is killed, only what it was asked for stays open, and the next start closes that", "statement": "A host starts and kills the firewall daemon any number of times, at any point of its work, perhaps with a changed configuration. While no daemon runs, only the control port and what the last daemon was asked for is open, and unless one of its maintenance runs had failed the lease time of that had not ended when it was killed. A successful start opens the control port and nothing else. While a daemon runs, nothing from before its start is open.", "quantifier": "all sequences of starts, failed starts, requests, maintenance runs, removals of rules by others, and kills at any point including between the change of the firewall and the answer", "why_tests_cant": "crash points are unbounded in number and position", "anchors": ["letmeinfwd/src/main.rs:main_async", "letmeinfwd/src/firewall/nftables.rs:NftFirewall::new", "letmeinfwd/src/firewall/nftables.rs:NftFirewall::open_port", "letmeinfwd/src/firewall/nftables.rs:nftables_full_rebuild"]}
{"id": "C90", "title": "After a restart with another configuration only what that one allows is open", "statement": "When the firewall daemon was killed or ended and is started again with a changed configuration, a port is open only if the new configuration allows it.", "quantifier": "all histories before the restart and all pairs of configurations", "why_tests_cant": "it depends on how the daemon ended and on which options were changed", "anchors": ["letmeinfwd/src/firewall/nftables.rs:NftFirewall::new", "letmeinfwd/src/firewall/nftables.rs:NftFirewall::shutdown", "letmeinfwd/src/firewall/nftables.rs:NftNames::get"]}
{"id": "C91", "title": "Behind every open port is an authenticated knock, across kills and restarts of both daemons", "statement": "Both daemons are killed and restarted any number of times, each time perhaps with a changed configuration, and others take rules out of the chain. While a firewall daemon serves, a port other than the control port is open for an address only if a session of that address authenticated itself for a resource with this port under the configuration of its own letmeind, and this very firewall daemon, whose own configuration permits the port, acknowledged it and has not had to expire it. After the firewall daemon was killed the same holds except that the request may have been left without an answer. If nobody forges or relays messages, the address is that of a holder of a configured key.", "quantifier": "all interleavings of sessions, clients, firewall daemons, starts, kills and removals by others", "why_tests_cant": "crash points, restarts, configuration changes and interleavings are unbounded", "anchors": ["letmeind/src/server.rs:ConnectionOps", "letmeind/src/protocol.rs:Protocol::run", "letmeinfwd/src/server.rs:FirewallConnection::handle_message", "letmeinfwd/src/firewall/nftables.rs:NftFirewall::new", "letmeinfwd/src/firewall/nftables.rs:NftFirewall::maintain"]}
{"id": "C92", "title": "What a changed configuration no longer grants is closed after a restart or a lease time", "statement": "The administrator changes letmeind's configuration (removes a user's key, a resource, or a user from a resource) and restarts. From the restart of the firewall daemon on, or from the first of its maintenance runs that comes a lease time after the last request before the change, whatever is open is granted by the configuration of a session whose request came after the change. In particular the holder of a key that is in none of these configurations has nothing open, if messages are neither forged nor relayed.", "quantifier": "all interleavings, points of change, configurations before and after, kills and restarts of both daemons", "why_tests_cant": "it depends on the order of restarts, requests in flight and maintenance runs", "anchors": ["letmeind/src/main.rs:async_main", "letmeind/src/protocol.rs:Protocol::run", "letmeinfwd/src/main.rs:async_main", "letmeinfwd/src/firewall/nftables.rs:NftFirewall::maintain"]}
{"id": "C93", "title": "Replay protection survives restarts and changed configurations", "statement": "However often letmeind is restarted and its configuration changed: every request to the firewall rests on a response that the holder of the user's key, as configured for the letmeind process of this session, computed for this session's challenge; no two sessions use the same response; and the response was sent after the challenge was drawn, so what was recorded before is worthless.", "quantifier": "all interleavings of sessions of any letmeind processes and clients, all attackers", "why_tests_cant": "the attacker, the schedule and the number of restarts are unbounded", "anchors": ["letmeind/src/protocol.rs:Protocol::run", "letmein-proto/src/lib.rs:Message::check_auth_ok", "letmein-proto/src/lib.rs:secure_random"]}
{"id": "C94", "title": "A knock command takes a bounded time", "statement": "Whatever the server, the network and the name services do: `letmein knock` spends at most eight control timeouts in sending to and waiting for the server (four per address family), asks the name services at most twenty times and connects at most twice. No single send or receive takes longer than the control timeout. The command is never stuck: it is over, or waits for the answer of one of at most 34 calls.", "quantifier": "all behaviours of the server, the network and the name services, all configurations and arguments", "why_tests_cant": "the peer may stall at any point, answer at the last moment, or send anything", "anchors": ["letmein/src/command/knock.rs:run_knock", "letmein/src/command/knock.rs:KnockSeq::knock_sequence", "letmein/src/client.rs:Client::send_msg", "letmein/src/client.rs:Client::recv_specific_msg", "letmein/src/resolver.rs:resolve"]}
{"id": "C95", "title": "A knock that reports success has opened the port", "statement": "When `letmein knock` reports success, the server has opened what was knocked for, for the client's own address: the firewall daemon has acknowledged the opening of a resource that the server's configuration grants for the user and resource numbers the client knocked with, and packets from the client's address are accepted until the lease expires.", "quantifier": "all interleavings of any number of sessions and clients, all behaviours of the network", "why_tests_cant": "it relates what two processes on two hosts and a kernel saw, over all schedules and all attackers", "anchors": ["letmein/src/command/knock.rs:KnockSeq::knock_sequence", "letmein/src/client.rs:Client::recv_specific_msg", "letmeind/src/protocol.rs:Protocol::run", "letmeinfwd/src/server.rs:FirewallConnection::handle_message"]}
{"id": "C96", "title": "An address's access depends only on its own knocks", "statement": "What an address may reach through the firewall, and what the firewall daemon answers to requests for it, depend only on the requests for that address and on the times of the maintenance: requests for other addresses, in any number and at any time, neither open nor close, extend nor shorten anything for it, nor make its requests fail.", "quantifier": "all pairs of histories of the firewall daemon with the same requests for one address, with any other messages and changes of other chains in between", "why_tests_cant": "it compares two whole histories and all packets; interference needs a particular mix of addresses, orders and expiry times", "anchors": ["letmeinfwd/src/firewall.rs:LeaseId", "letmeinfwd/src/firewall/nftables.rs:NftFirewall::open_port", "letmeinfwd/src/firewall/nftables.rs:NftFirewall::maintain", "letmeinfwd/src/server.rs:FirewallConnection::handle_message"]}
{"id": "C97", "title": "A user set up with gen-key can knock", "statement": "Take a client and a server whose configuration files load and have no key for a user. Whatever key `letmein gen-key` generates, its output line, pasted anywhere into the [KEYS] section of both files, makes that user able to knock open every resource that both files have for the user; both files still load, with nothing changed but the new key, and what other users can do stays as it was.", "quantifier": "all pairs of configuration files, all users, keys, places in the section, hash orders, and all executions of the knock", "why_tests_cant": "it ranges over all texts of two files and all keys, and joins the printer, the ini parser, the two loaders and the protocol", "anchors": ["letmein/src/command/genkey.rs:run_genkey", "letmein-conf/src/lib.rs:Config::load", "letmein-conf/src/ini.rs:Ini::parse_str", "letmein/src/command/knock.rs:run_knock", "letmeind/src/protocol.rs:Protocol::run", "letmeinfwd/src/server.rs:FirewallConnection::handle_message"]}
{"id": "C98", "title": "The rule set is no larger than the live grants need", "statement": "Whatever has happened, the chain of the running firewall daemon holds one rule per transport of the control port and one rule per transport of every grant whose lease time is not over, and no more: renewed, refused, failed and expired requests leave nothing behind. So two plus four times the number of addresses with a live grant times the number of configured resources bounds the number of rules.", "quantifier": "all histories of the firewall daemon: requests, failures of nft, maintenance runs, hash orders and steps of other programs", "why_tests_cant": "a leak of rules shows only after long histories with failures at the right moments", "anchors": ["letmeinfwd/src/firewall/nftables.rs:NftFirewall", "letmeinfwd/src/firewall.rs:prune_all_lease_timeouts", "letmeinfwd/src/server.rs:FirewallConnection::handle_message"]}
{"id": "C99", "title": "Deleting the line of a user's key revokes that user and nobody else", "statement": "Delete the line with a user's key from the [KEYS] section of the server's file. The file still loads, the user has no key any more, and nothing else has changed: no session of letmeind with the new file opens anything for a knock of that user, and what other users can do stays as it was.", "quantifier": "all configuration files, users, lines, hash orders, and all sessions after the change", "why_tests_cant": "it ranges over all texts of the file and all sessions", "anchors": ["letmein-conf/src/lib.rs:Config::load", "letmein-conf/src/ini.rs:Ini::parse_str", "letmeind/src/protocol.rs:Protocol::run"]}
{"id": "C100", "title": "The layout of the configuration file does not matter", "statement": "Change a configuration file only in its layout: add or remove comments and blank lines, change the white space around headers, names and values, exchange neighbouring options that have different names, exchange whole sections. The new file is accepted exactly if the old one was, the programs read the same configuration from it, letmein, letmeind and letmeinfwd do the same with it, and the same users can knock for the same ports.", "quantifier": "all configuration files, all sequences of such changes, hash orders, client and server", "why_tests_cant": "it ranges over all texts of the file and all sequences of edits", "anchors": ["letmein-conf/src/ini.rs:Ini::parse_str", "letmein-conf/src/lib.rs:Config::load", "letmein-conf/src/parse.rs:parse_bool"]}
{"id": "C101", "title": "Changing the line of a user's key replaces exactly that key", "statement": "Replace the only line with a user's key in the server's file by a line with another key. The file still loads and nothing else has changed, what other users can do is what they could before, and a session of letmeind with the new file that began with a knock of the user opens a port only after a knock and a response made with the new key. Once the client's file has been changed in the same way, the user can do what they could before.", "quantifier": "all configuration files, users, old and new lines, hash orders, and all sessions after the change", "why_tests_cant": "it ranges over all texts of the files and all sessions", "anchors": ["letmein-conf/src/lib.rs:Config::load", "letmein-conf/src/ini.rs:Ini::parse_str", "letmeind/src/protocol.rs:Protocol::run"]}
{"id": "C102", "title": "Changing or deleting the line of a resource affects exactly that resource", "statement": "Replace the only line of a resource in the server's file by another valid line for it. The new file loads exactly if no other resource has the new port, and then nothing but this resource has changed. A session of letmeind with the new file that began with a knock for the resource opens at most the port and the protocols of the new line, and only if the new line lets the user in. Without the line the file always loads, nothing else has changed, and a knock for the resource opens nothing.", "quantifier": "all configuration files, resources, old and new lines, hash orders, and all sessions after the change", "why_tests_cant": "it ranges over all texts of the file and all sessions", "anchors": ["letmein-conf/src/lib.rs:Config::load", "letmein-conf/src/lib.rs:get_resources", "letmein-conf/src/ini.rs:Ini::parse_str", "letmeind/src/protocol.rs:Protocol::run"]}
{"id": "C103", "title": "A knock depends on its own lines of the file only", "statement": "If two files of letmeind say the same about the control port, the error policy, the user and the resource of a knock, then a session that began with this knock can go on with one file exactly as with the other, whatever else the files say. If two files of the client say the same about the user, the resources for the port and the control port, the knock command does the same with both. In particular, changing the key of another user, or changing or deleting another resource, changes nothing for a knock. If two files say the same about the control port, nft and the resources for the port of a request, the firewall daemon does and replies the same with both, in every state; the keys and the resources of other ports make no difference to it.", "quantifier": "all pairs of configuration files, users, resources, ports, and all sessions and knock commands", "why_tests_cant": "it relates two programs for all files, all messages of the peer and all schedules", "anchors": ["letmein-conf/src/lib.rs:Config::key", "letmein-conf/src/lib.rs:Config::resource", "letmein-conf/src/lib.rs:Config::resource_id_by_port", "letmeind/src/protocol.rs:Protocol::run", "letmein/src/command/knock.rs:run_knock", "letmeinfwd/src/server.rs:FirewallConnection::handle_message"]}
{"id": "C104", "title": "Adding a line for a resource adds exactly that resource", "statement": "Add a line for a new resource to the section RESOURCES of a file. The file loads exactly if no resource has the port of the new one, and then nothing else has changed. With lines for the resource in the files of client and server, every port that could be opened before still can, and the users that the lines let in can open the new port, unless it is the control port. A session that began with a knock for the new resource opens at most what the line says, for a user the line lets in. All other sessions are what they were. The firewall daemon permits the port of the new resource besides the ports it permitted, unless it is the control port, and its replies to requests for other ports stay the same.", "quantifier": "all configuration files, resources, lines and places in the section, hash orders, and all sessions", "why_tests_cant": "it ranges over all texts of the files and all sessions", "anchors": ["letmein-conf/src/lib.rs:Config::load", "letmein-conf/src/lib.rs:get_resources", "letmein-conf/src/ini.rs:Ini::parse_str", "letmeind/src/protocol.rs:Protocol::run"]}
