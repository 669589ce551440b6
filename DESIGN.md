# Formal model of letmein in Rocq (Coq 8.16.1)

This file says what is modelled, how each property of `properties.jsonl` is
expressed and proved, which properties turned out to be false of the code, and
what has to be trusted.

## 1. Method

* The model is a set of total, computable Gallina functions, one per Rust
  function, in `rocq/theories/M_*.v`.  Every definition cites the file and the
  lines of `/repo` it models, and says where it simplifies.
* The specification vocabulary (what a property *means*) is in `S_*.v`.  It uses
  the data types and the parameters of the model, not its helper functions.
* Proofs are in `P_*.v`.
* The property theorems are in `Prop_*.v`: the statement, its proof from the
  lemmas, `Print Assumptions`, and `Example`s (concrete, non-trivial cases that
  meet the hypotheses).
* A property that is false of the code has a theorem with the suffix `_refuted`
  (a witness execution) and theorems with the suffix `_partial` for the strongest
  variants that hold.  Its status in `MANIFEST.json` is `partial`.
* Only the Coq standard library is used.  No axioms are added.

Modelling conventions

* A byte is an `N` below 256; texts are lists of Unicode code points (`N`).
* `res` = `Ok | Err | Panic`.  `Panic` models a failing `assert!`, a slice index
  error, arithmetic overflow (the release profile has `overflow-checks = true`) or
  `unwrap` on `None`.  `debug_assert!`s are not modelled (release profile).
  The panics of `println!`/`eprintln!` when standard output or error is closed are not
  modelled, nor the panic of `Instant + Duration`: the clock is an unbounded number.
  The durations in a loaded file are at most `u32::MAX` seconds (`parse.rs:77-82`).
* Everything outside of the program is an input that the theorems quantify over:
  socket results, timers, random bytes, results of nft, DNS answers, the clock, the
  iteration order of hash maps, results of system calls.  Session handlers and the
  client are interaction trees whose external calls are answered arbitrarily.
* The MAC is a parameter; there is also a concrete HMAC-SHA3-256 in Gallina
  (`M_Sha3.v`), proved equal to the standards (C71) and checked against the test
  vectors of the repository.

## 2. What is modelled, file by file

| Rust | model |
|------|-------|
| `letmein-proto/src/lib.rs` message codec, authentication, `secure_random` | `M_Proto.v` |
| `letmein-proto/src/lib.rs` SHA3/HMAC (crates `sha3`, `hmac`) | `M_Sha3.v` (own definition of the standard functions) |
| `letmein-proto/src/socket.rs` stream framing loops | `M_Stream.v` |
| `letmein-proto/src/socket.rs` UDP dispatcher | `M_Udp.v`; when its tasks run: `M_Wake.v` |
| `letmein-fwproto/src/lib.rs` | `M_FwProto.v`, address part in `M_IpAddr.v` |
| `letmein-conf/src/lib.rs`, `parse.rs`, `parse_items.rs`, `ini.rs` | `M_ConfTypes.v`, `M_Conf.v`, `M_Str.v`, `M_Utf8.v`, `M_Text.v` |
| `letmein-systemd/src/lib.rs` `get_all` | `M_Start.v` |
| `letmein-seccomp/src/lib.rs` | `M_Seccomp.v` (the map of rules and its meaning) |
| `letmeind/src/protocol.rs`, `firewall_client.rs` | `M_Server.v` |
| `letmeind/src/server.rs` | `M_Start.v`, `M_Daemon.v`; `Server::accept` with both transports: `M_Accept.v` |
| `letmeind/src/main.rs` | `M_Main.v` (start), `M_Daemon.v` and `M_Accept.v` (accept loop, exit) |
| `letmeind/src/seccomp.rs`, `letmeinfwd/src/seccomp.rs`, `letmein/src/seccomp.rs` | `M_Seccomp.v` |
| `letmeinfwd/src/server.rs`, `uid_gid.rs` | `M_Start.v`, `M_Firewall.v` |
| `letmeinfwd/src/firewall.rs`, `firewall/nftables.rs` | `M_Firewall.v`, `M_Listing.v` |
| `letmeinfwd/src/firewall/nftables.rs`, the JSON document for nft | `M_Json.v` |
| `letmeinfwd/src/main.rs` | `M_Main.v` (start), `M_Daemon.v`, `M_Firewall.v` (loop, exit) |
| `letmein/src/client.rs`, `resolver.rs`, `command/knock.rs` | `M_Client.v` |
| `IpAddr::from_str`, `Display for IpAddr` of the Rust standard library | `M_IpParse.v`, `M_Text.v` |
| `f64::from_str`, `Duration::try_from_secs_f64` of the Rust standard library | `M_Float.v` |
| `letmein/src/command/genkey.rs` | `M_Conf.v` (`genkey_line`) |
| error texts of `letmein-conf` | `M_Report.v` |
| `letmein/src/main.rs` | `M_Main.v` |

Not modelled: log and error output, except what is said about a rejected
configuration file (`M_Report.v`); the `clap` parser (the model gets the values
of options; texts that letmein itself parses are texts in the model); the BPF code
generator of `seccompiler` (the meaning of a rule map is taken from its
documentation; system call names stand for distinct numbers); the JSON text of
the listing that nft prints (the model has its objects, `M_Listing.v`) and netfilter itself (an nft
batch is atomic, reports its status reliably, and changes an ordered list of rules with
handles); what the crates `nftables` and `serde_json` write is taken from their
documentation; DNS protocol code; the
executor tokio (instead, any interleaving of atomic steps; the wake-ups of the UDP
dispatcher are in `M_Wake.v`, without the forced yields of tokio); installer
and packaging scripts; `#[cfg(test)]` code; platforms other than Linux for the
daemons.

Simplifications that matter for reading a theorem

* `to_lowercase` is exact for ASCII and the characters whose lower case is ASCII
  (`M_Text.v`), other characters are unchanged; only comparisons with ASCII words
  are made in the code.
* Durations that are not whole seconds go through `f64`.  Except in C70, their value
  is an arbitrary function of the text (`fraction`/`float_duration`).  In C70 it is
  the one of `M_Float.v`; there the parser of the standard library is its documented
  result (the nearest `f64`, half to even), not its algorithms.
* Timers are ideal: an operation with timeout `T` takes at most `T`.
* An address in a rule is a text; a rule matches the packets from the address that
  the text denotes (`S_Ip.v`), so nft is assumed to read the standard notation.  The
  printer and the parser of the Rust standard library are modelled (C27, C64).  The
  theorems on the client other than C64 hold for any parser.
* C47, C51, C54-C56: the unix socket between the daemons delivers messages
  unchanged and only letmeind talks to letmeinfwd (the latter is C42).
* C54: channels lose nothing, no timeout happens, nft does not fail.
* C56: the maintenance task is polled with a delay of at most `delay`
  (`on_schedule` in `S_Maint.v`).
* C57-C62: paths under the run directory are compared by spelling; a failed write
  of the PID file has no effect in the model; the runtime is single-threaded and
  the start does not await between creating the listeners and spawning the tasks, so
  "serving" starts with the spawn.

## 3. Properties, models and proofs

| id | statement is about | how it is proved | file |
|----|--------------------|------------------|------|
| C01-C03 | `Message` codec against an independent offset table | case analysis on the byte lists | `Prop_Wire.v` |
| C04, C05, C48 | authentication functions, any MAC; `secure_random` | injectivity of the MAC input | `Prop_Wire.v` |
| C06 | read and write loops, arbitrary partial reads and writes | induction on the schedule | `Prop_Stream.v` |
| C07-C11, C13 | all executions of the session program | inversion over all traces, path lemmas | `Prop_Session.v` |
| C12 | client and server programs connected by channels, every interleaving | invariant over the joint states | `Prop_Pair.v` |
| C14, C15 | any number of sessions and clients, attacker | invariant by induction on the trace; C15 by a relay execution | `Prop_System.v` |
| C16-C19 | all executions of the client | inversion over all traces | `Prop_Client.v` |
| C20 | firewall message codec | as C01 | `Prop_Wire.v` |
| C21-C27, C50 | all histories of the firewall daemon | invariant (leases = rules) by induction | `Prop_Firewall.v` |
| C28-C32 | all histories of the UDP dispatcher | invariants by induction; witnesses | `Prop_Udp.v` |
| C33-C40, C49, C52 | all texts and files, against grammar relations | induction on texts, both directions | `Prop_Conf.v` |
| C41, C43, C53 | accept loops as transition systems | invariants; witnesses | `Prop_Daemon.v` |
| C42 (also `Prop_Daemon.v`), C44, C46 | accept check, start of the listeners, account files | case analysis, induction on lists | `Prop_Start.v` |
| C45 | filter maps | computation over the shipped lists; for any list of features by induction: when the filter exists and exactly which calls it lets pass | `Prop_Seccomp.v` |
| C47, C51 | sessions, clients, attacker, firewall daemon together | composition of C07, C08, C14, C23 | `Prop_Whole.v` |
| C54, C55 | from the files of client and server to the packet that is let in | progress by a decreasing measure; composition | `Prop_E2e.v` |
| C56 | C23/C47 with the maintenance schedule | arithmetic on the history | `Prop_Maint.v` |
| C64 | parser and printer of `core::net`; text denotation (`S_Ip.v`) | parser sound and complete for the notation; structural predicate on client programs | `Prop_Ip.v` |
| C65 | effect traces of the main programs (`M_Main.v`) | exact traces of successful starts; prefixes of them for failed ones | `Prop_Serve.v` |
| C66, C67 | schedules of the UDP tasks of letmeind | invariant of all calm histories; counterexample schedules, and an invariant that nothing happens any more | `Prop_Wake.v` |
| C68 | client, session and firewall daemon over byte streams, with the loops of socket.rs and fwproto | simulation of the byte streams by the message channels of C54, a bound on the moved bytes | `S_Bytes.v`, `Prop_Bytes.v` |
| C69 | the whole knock command with its two knocks, a session per connection, each family reachable or not | bounded progress composed from the two knocks | `S_Both.v`, `Prop_Both.v` |
| C70 | all numbers in decimal notation, rational arithmetic | error and monotonicity lemmas of the two roundings, grammar both directions | `S_Float.v`, `M_Float.v`, `Prop_Float.v` |
| C71 | hash and MAC on lanes against the bit-level text of FIPS 202 and FIPS 198-1 | representation relation through every step of the permutation, sponge and padding by induction | `S_Sha3.v`, `Prop_Sha3.v` |
| C72 | client, session and firewall daemon over datagrams, both ends through the dispatcher of `M_Wake.v` (socket buffer, readiness, watch channels, queue, sleeps) | invariant of the two dispatchers while at most one datagram is on the way, simulation by the message channels of C54, a weight that every task step lowers | `S_Dgram.v`, `Prop_Dgram.v` |
| C73 | one session of the server under two configurations with the same error policy, a first message that is no valid knock under either | a relation of session programs (same calls, results of the same kind) that steps preserve | `S_Secret.v`, `Prop_Secret.v` |
| C74 | one session of the server, and the whole knock command, under two configurations that differ in the key bytes while the tokens agree | the same relation with equal results, for server and client programs | `S_Secret.v`, `Prop_Secret.v` |
| C75 | `Server::accept`, its two accept tasks and the handler task, any interleaving and failures | queue invariant (arrived = started ++ waiting), a weight that own steps lower, refinement of `M_Daemon.v` | `S_Accept.v`, `Prop_Accept.v` |
| C76 | C54 with a session that exists only once letmeind has accepted the connection, among any others | simulation by the channels of C54, place of the connection in the queue | `S_Accept.v`, `Prop_Accept.v` |
| C77 | C76 for UDP: accepting tasks and dispatcher with the sessions of all peers, any order of the connection map | dispatcher invariant (counts, one session per peer, room for one more), link of its sessions with the queue of C75, simulation by the channels of C54; a measure of the buffer and of new connections for progress | `S_Crowd.v`, `Prop_Crowd.v` |
| C78 | the texts of all errors of `Config::load`, with what they quote from the file | relation of two parsed files that differ in one key, carried through the line parser and all getters; the texts fit the errors of `M_Conf.v` | `M_Report.v`, `S_Report.v`, `Prop_Report.v` |
| C79 | C68 and C76 together: byte streams and a session that exists only once letmeind has accepted the connection | projection to the executions of C68, place of the connection in the queue | `S_Rush.v`, `Prop_Rush.v` |
| C80 | infinite executions of the system of C79; weak fairness for the knock, the kernel and the handler task, strong fairness for the TCP branch of the select | the work of the knock is bounded by C79; the queue before the client is a well-founded measure that every helpful event decreases; fair executions are constructed | `S_Fair.v`, `Prop_Fair.v` |
| C81 | the serialization of a batch: JSON objects, string escapes, numbers, UTF-8 | RFC 8259 as inductive relations, unambiguous by prefix determinism; libnftables-json(5) as a relation between JSON values and commands; the printer is inside both | `M_Json.v`, `S_Json.v`, `Prop_Json.v` |
| C82 | infinite executions of the system of C77; weak fairness for the knock, the network and the handler task, strong fairness for reading the socket, for the walk through the map and for the UDP branch of the select | the work of the knock is bounded by C77; between two of its steps the client's datagram passes network, socket and map in this order, each with a measure that its kind of step decreases; fair executions are constructed | `S_CrowdFair.v`, `Prop_CrowdFair.v` |
| C83 | any number of copies of the system of C54 that share the firewall daemon | every execution, seen by one client, is an execution of C54 in which the other clients are part of "others"; their requests are well-formed by their own invariant | `S_Many.v`, `P_Many.v`, `Prop_Many.v` |
| C84 | the daemon model of C23 with steps of other programs that take any rules out of letmein's chain, flush or remove it | invariant: the chain plus some missing rules is the control rules plus the lease rules; a maintenance run deletes the expired part of it or rebuilds | `S_Loss.v`, `P_Loss.v`, `Prop_Loss.v` |
| C85 | the same histories | refuted by runs (a refreshed lease whose rule was flushed, a restored rule); proved: the first request opens, nothing is closed by a request, maintenance without an expired lease changes nothing | `Prop_Loss.v` |
| C86 | the listing as a list of objects, the lookup of a handle in it, and a maintenance run as separate nft calls with a different ruleset at each | the lookup equals that in the ruleset for every listing that shows it; invariant of C84 with handles found in an earlier ruleset | `M_Listing.v`, `S_Listing.v`, `P_Listing.v`, `Prop_Listing.v` |
| C87 | the same with any ruleset at the later calls | refuted by a run (the reload numbers the rules anew); proved: new handles make the deletion fail and the chain is rebuilt | `P_Listing.v`, `Prop_Listing.v` |
| C88 | the comments of the rules in the chain | digits of 8- and 16-bit numbers, then the invariant of C86 | `P_Comment.v`, `Prop_Comment.v` |
| C89 | a host on which the daemon of C86 is started, killed at any point and started again; the ruleset outlives it | invariant: the histories of C86 while a daemon runs, the requests of the last daemon while none runs | `S_Crash.v`, `P_Crash.v`, `Prop_Crash.v` |
| C90 | the same with a different configuration at the next start | refuted by a run (another chain after a kill); proved for the same chain and after an orderly end | `Prop_Crash.v` |
| C57-C63 | main programs with effect traces | prefix lemmas over the effect monad | `Prop_Main.v` |
| C91 | the sessions and clients of C47, each session with the configuration of its own letmeind, and the host of C89, joined by the socket | invariant of C89, the facts about one session, and reduction to the events of this session | `S_Host.v`, `P_Host.v`, `Prop_Host.v` |
| C92 | the host of C91 | consequence of C91: the acknowledgement lies after the last start and within the lease time | `Prop_Revoke.v` |
| C93 | the sessions and clients of C14, each session with the configuration of its own letmeind | reduction to C14 by leaving out the events of other sessions | `S_Host.v`, `Prop_Replay.v` |
| C94 | the client of C16, C18 with the duration of every send and receive | a bound on every program term, by induction over its continuations | `S_Patience.v`, `P_Patience.v`, `Prop_Patience.v` |
| C95 | the system of C47, C51 with a client and a session that receive only what the other one has sent | refuted by a run with a false server; proved from C16, C51 and the contents of the session's messages | `S_Truth.v`, `P_Truth.v`, `Prop_Truth.v` |
| C96 | two histories of the daemon of C21-C27 that differ elsewhere only | the leases of the address agree in both, by induction on the pair of histories; the chain mirrors the leases | `S_Apart.v`, `P_Apart.v`, `Prop_Apart.v` |
| C97 | lines of the two files before and after | C34, C52 for the new files; the entries of the other sections are kept; then C54 | `S_Setup.v`, `P_Setup.v`, `Prop_Setup.v` |
| C98 | number of rules of the chain, live grants | C22, C23, counting | `S_Count.v`, `P_Count.v`, `Prop_Count.v` |
| C99 | lines of the file before and after | the parser's entries after the deletion, C52, then C07 | `S_Revoked.v`, `P_Revoked.v`, `Prop_Revoked.v` |
| C100 | lines of the file and single edits of them | each edit keeps the parser's entries up to order and white space; C52's readers do not see either; programs related step by step | `S_Layout.v`, `P_Layout.v`, `P_Alike.v`, `Prop_Layout.v` |
| C101 | lines of the files before and after | the parser's entries after the change, C52, then C07 | `S_Rotate.v`, `P_Rotate.v`, `Prop_Rotate.v` |
| C102 | lines of the file before and after | the parser's entries after the edit, C52, then C08 | `S_Reassign.v`, `P_Reassign.v`, `Prop_Reassign.v` |
| C103 | entries of two files, sessions as in C07 | simulation of one session by the other after the first message | `S_Own.v`, `P_Own.v`, `P_OwnFw.v`, `Prop_Own.v`, `Prop_OwnFw.v` |
| C104 | lines of the files before and after | the parser's entries after the edit, C52, C08, C103 | `S_Adding.v`, `P_Adding.v`, `Prop_Adding.v`, `Prop_OwnFw.v` |

No property had to be left out as inexpressible.

## 4. What is false of the code

Found while proving; each has a `_refuted` theorem unless noted.

1. C30: five datagrams of one UDP peer before its session reads one, then the end
   of the session: the queue-overflow path (`socket.rs` 105-108) drops the queue
   without subtracting it from the total, so the total is not 0 when the last
   connection is gone and the assertion in `disconnect` (`socket.rs` 202) aborts the
   server.
2. C32: after such an overflow the same peer is accepted again while its first
   session is still open.
3. C31: a too short datagram read while session A waits makes A fail, even if it
   came from somebody else.  (The other reasons for which a receive fails are listed
   in `C31_receive_failures_partial`; they too can be caused by other peers.)
4. C41: the semaphore permit is dropped right after the handler was spawned;
   `num_connections` does not limit TCP sessions.
5. C43: an error of `accept` ends letmeind (descriptor exhaustion), a peer with the
   wrong PID, UID or GID ends letmeinfwd, which then flushes the chain.  If setting
   TCP_NODELAY fails for one accepted connection, that connection is dropped and
   letmeind ends as well (`C75_dropped`).
6. C15: a relay that forwards a handshake opens the port for its own address.
7. C39: textually identical duplicate options are accepted, the last one wins.
8. C44: if systemd passes a socket for one of two configured transports only, the
   other one is silently not served.
9. C45: adding an argument-restricted feature to a list with the unrestricted form
   forbids calls (not triggered by the shipped lists).
10. C53: SIGTERM while a session is open drops a connection without close, the
    assertion in its destructor aborts the process.
11. C57 beyond its statement, on other platforms: where seccomp is not supported, mode "kill" only warns.
12. C58: letmeinfwd failing after `NftFirewall::new` leaves the control port open.
13. C61: READY=1 is sent before the PID file is written and before the filter is
    installed; the start can still fail.
14. C66: a receive that was woken by the watch channel and then fails (a datagram of
    the wrong size) does not pass the wake-up on; if the accepting task then clears
    the readiness and returns early, sessions with queued datagrams wait until
    something else arrives.  The next pass of any task that neither fails nor accepts
    repairs this (`C66_next_pass_repairs`).
15. C67: notifications for two new peers become one in the watch channel, and
    `accept` looks for one new peer only, so the second one may not be accepted until
    something else arrives.  Needs no failure and no attacker.
16. C85: a reload of the ruleset by somebody else is not noticed.  A refreshed lease
    is acknowledged although its rule is gone; the control port stays closed until a
    lease expires whose rule is missing; a rule that is restored from a saved ruleset
    after its lease has ended stays for ever.
17. C87: rules are deleted by the numbers of an earlier listing.  If the ruleset is
    loaded again in between and the rules are numbered anew, the wrong rule is
    deleted: the lease that has ended stays open, a live one is closed, and success
    is reported.
18. C90: a daemon that was killed leaves its rules in the chain, and a start clears
    only the chain that is configured now.  If the name of the chain was changed, the
    old rules stay for ever.
19. C95: ComeIn is not authenticated.  Whoever sits between client and server can make
    the client report success although the server has opened nothing.
20. C99: deleting the line of a user's key need not take the key away.  If the section
    has an older line for the same user (C39), the older key is in force again.

Observations without a property of their own: datagrams longer than 56 bytes are
truncated and accepted; `addr_check` does not reject `::ffff:0.0.0.0` and
`::ffff:255.255.255.255`; there is no timeout between letmeind and letmeinfwd; the
client ignores a file it cannot parse (C37), and the resolver gives up after the
first successful lookup without a matching record (C19); a firewall message of
type IPv4 ignores the first twelve address bytes; the Kelvin sign is accepted as
"k"; numbers may have a leading "+"; the time "-0" is accepted as zero; the last of several numbers in `port` wins;
the client accepts an unauthenticated Challenge and ComeIn (C16 states what success
means); leases for (A, tcp p) and (A, tcp+udp p) may coexist with equal
rules, and if both expire in one maintenance run the same handle is deleted twice, so
the batch fails and the chain is rebuilt (`C25_common_rule_needs_rebuild`); `--num-connections`
above the limit of tokio panics, 0 serves nobody; with both `-4` and `-6` and an
address instead of a host name the client cannot succeed, and for an IPv6 address it
knocks (perhaps successfully) before it reports the error (`C64_mode_of_literal`).

## 5. Trusted base

* Coq's kernel (8.16.1) and, for computations in proofs, its virtual machine
  (`vm_compute`; no `native_compute`).
* `Print Assumptions` prints "Closed under the global context" for every theorem of
  `Prop_*.v`: no axioms.  (`vcheck` lists `Coq.ssr.ssrunder.Under_rel.*` among the
  axioms of loaded library modules; they come from a module type of the standard
  library and no theorem depends on them.)
* The faithfulness of the model: section 2.
* The hypotheses in the statements, in particular the cryptographic assumption
  `unforgeable` (`S_System.v`) of the theorems of C14 and C15 and of
  `C47_accepted_packet_comes_from_key_holder`, together with `distinct_nonces`,
  `unpredictable` and `unrelayed` where a statement names them.  They are hypotheses on
  an execution, and examples show executions with HMAC-SHA3-256 that meet them.  The other theorems about
  the whole system (the rest of C47, C51, C54-C56) have no cryptographic hypothesis:
  they say that the session saw a valid token, not who made it.

## 6. Testing the theorems

`seeded/LOG.jsonl` has one line per wrong program: the definition that was edited,
the edit, the claim it breaks, the theorems that failed and the theorems that were
tightened.  A proof that broke was admitted and the build went on, until it ended.

How to read a line:

* `proofs_broken` are the proofs that Coq rejected for the edited model.
* `theorems_failed` are the theorems of the intended properties that broke themselves
  or rest on a broken proof.  `other_theorems_not_rebuilt` counts the theorems of all
  other properties in the same situation.
* Such a failure is weaker than it looks.  A broken proof script shows that the script
  depends on the edited line, not that the theorem is false of the edited program, and
  a broken lemma takes down every theorem above it, including theorems whose claim
  still holds.  So "failed" is an upper bound on what was detected.
* `shown_false` lists the theorems whose negation was proved in the edited model.  Only
  these are known to reject the wrong program.  The negation is the text of the theorem
  over the edited `M_*.v` and the `S_*.v` files, proved false from a concrete case without
  assumptions; the same script has to fail on the unedited model.
* `proofs_broken` is null for an edit that was only tested in this second way.
* `complete` is false if a file ran out of time in the edited model.

Besides these, two automatic sweeps edit the model mechanically: one changes each
constant, comparison, constructor and argument order in turn, the other drops list
elements, swaps branches and arguments, and removes updates.  Every edit for which the whole
development still builds was read.  Each was either equivalent to the model (an
error text, a branch that no input reaches, a spare wake-up at the start), or a
theorem was tightened, in which case the edit is also in the log.
