# Formal model of ratelmq in Rocq (Coq 8.16.1)

Source: `/repo` (rust, pinned commit). Model and proofs: `/verif/rocq/theories`, logical name `Verif`.

## Layout

| Files | Content |
|---|---|
| `Base.v`, `Base_facts.v`, `HashMap.v` | bytes, outcome types, the reader monad; the `HashMap` model |
| `Utf8.v`, `Packets.v`, `Decoder.v`, `Encoder.v` | `str::from_utf8`, packet types, `packet_decoder.rs`, `packet_encoder.rs` |
| `Plain.v` | the decoders run on a plain byte list (a reference interpreter, not part of the code) |
| `ReadStream.v`, `WriteStream.v`, `Conn.v` | `BytesMut` with its capacity, `mqtt_bytes_stream.rs` over an arbitrary socket; successive reads of one connection |
| `Subscriptions.v`, `Messaging.v`, `Handler.v` | subscription tree, sessions and messaging service, central event handler |
| `System.v` | whole broker as a labelled transition system: connection tasks, channels, handler, service, shutdown |
| `Pool.v` | the same broker on a fixed number of worker threads, which spinning tasks occupy |
| `Service.v` | the same broker with the messaging service as a task of its own: its channel, its oneshots |
| `Startup.v` | start of the process around the broker: password file, addresses, the build information |
| `Files.v` | the password file shared by processes that read and write it piecewise |
| `Stack.v`, `Sockets.v` | the same broker with a bound on nested calls, and on open sockets |
| `Accept.v` | the same with the kernel's queues of connections not yet accepted, and failing accepts |
| `Live.v` | the same broker with clients that decide as they go what to send |
| `Logging.v` | the log records of each step of the broker |
| `Fifo.v` | the order in which places in the handler's channel are given out |
| `Teardown.v` | the end of the process: the runtime drops the tasks that are left |
| `Drop.v` | the end of the messaging service, with a bound on the nested calls that drop the tree |
| `ConfigFile.v` | which configuration file is read |
| `Duplex.v` | the byte stream that has not been split, and calls given up half-way |
| `StartLog.v` | the log records of starting and stopping |
| `Traces.v` | the decoder with the trace records of each string |
| `Abort.v` | a start that fails at an address, and the end of the process |
| `Burst.v` | the same on stacks of limited size |
| `Library.v` | public methods of sessions and service that the broker never calls |
| `Launch.v` | build.rs, the version, the loading of .env |
| `Defaults.v` | packets made from a type number |
| `Tool.v` | a run of `ratelmq-passwd` from its command line |
| `Auth.v`, `Passwd.v`, `KeepAlive.v` | password file and login, `ratelmq-passwd`, keep-alive arithmetic |
| `Spec_utf8.v`, `Spec_wire.v`, `Spec_subs.v`, `Spec_broker.v`, `Spec_ref.v` | specifications, written without the model's helpers; `Spec_ref.v` is a reference broker |
| `*_facts.v`, `System_*.v` | lemmas and proofs |
| `RepoTests.v`, `RepoTests_subs.v` | the repository's own unit tests, evaluated on the model |
| `Prop_*.v` | the property theorems named in MANIFEST.json, small specifications they need, and concrete cases |
| `Assumptions.v` | `Print Assumptions` for every theorem in MANIFEST.json (generated) |

A property that is false of the code has its full statement as a definition `Cnn_statement` (or in the
theorem) and a theorem `..._refuted`; what holds instead is in theorems with the suffix `_partial`, or in
an exact characterisation.

Style: standard library only, total computable Gallina functions, no axioms, no functors.

## Modelling decisions

* A reader program is a value of a free monad (`Ret`, `Err`, `Boom` = panic, `GetU8`, `GetU16`, `GetBytes`).
  The decoders are written once and run by two interpreters: on a plain byte list, and on the buffered
  stream with arbitrary read sizes and allocation choices. One induction relates the two.
* An encoder is the list of `put_*` calls it performs. It is run on a buffered write stream whose socket
  accepts an arbitrary positive number of bytes per call, fails, or blocks.
* `BytesMut` is its content plus its capacity. `advance` and `split_to` lower the capacity by the bytes removed,
  except that since `bytes` 1.7 an `advance` over everything keeps it (Cargo.toml asks for 1.0.1 or later and there is
  no Cargo.lock, so the version is a parameter, `reuse`, and theorems quantify over it unless they say otherwise);
  growing is an oracle that returns any sufficient capacity.
* Rust's unchecked `-=` on `u64` is a parameter: debug builds panic, release builds wrap. Theorems quantify over both.
* A panic is an explicit value. A loop that can spin forever is run with fuel; exhaustion is the explicit value
  `Hung`, proved equivalent to divergence of the unbounded iteration.
* The `HashMap` is an association list with unique keys. Every theorem is about lookups or multisets, so iteration order is not observable.
* The messaging service has the handler as its only client, which waits for each reply. A handler call is
  therefore: a sequence of atomic service operations, then a list of channel sends. Sends are separate steps in `System.v`:
  they wait while the channel holds 32 events and panic if the receiver is gone. `Service.v` does not assume this:
  it has the service's channel, its oneshots and the sessions the handler holds, and C94 proves that the executions
  are the same.
* The hash library (argon2), uuid generation, the clock and Unicode case folding are parameters, quantified in each theorem.

## Properties and how each is proved

C01 to C03: `encode_remaining_length` as digit list; induction on the value; the independent specification is a positional sum.
C04, C05, C06, C08, C09: run the decoder on the bytes written by the encoder or by a reference encoder (`Spec_wire.v`); induction on lists.
C02, C07: refuted by witness; the exact accepted set is proved instead (for C07 what each CONNECT with a will is read as).
C10, C12, C13, C16, C21: inversion of the decoder on an arbitrary byte list; C16 and part of C12 are refuted and characterised.
C11: Rust's byte-class validator equals the image of a scalar-value encoder.
C14: the interpreter simulation, with an oracle for the numbers whose room is given back. C15: refuted; exact
condition for the spin in terms of capacity.
C17: an independent client-side parser (`Spec_wire.v`) inverts the encoder.
C18 to C20: invariant over `put` calls for every short-write pattern; C19 refuted under short writes.
C22 to C29: refinement of the tree to a per-(client, filter) counter over histories, and an inductive MQTT matching relation. C23, C24, C28, C29 and the unrestricted C25, C26 are refuted by witness; C24 also says exactly where the matching differs from MQTT's.
C30 to C38, C42, C43, C52: the handler as `state -> event -> option (state * sends)`; history-level specifications.
C40, C41, C45 to C47: text functions on UTF-8 bytes; induction on the file; the lines of a text and the language of the regular expression are specified separately.
C39, C44, C48 to C51, C53, C54, C56 to C58: invariants of the transition system over all label sequences; refutations are concrete runs. C57 for every run (`Prop_exit.v`): at rest after ctrl-c (C87) no task but a stalled handler is left.
C59: the queue invariant joined to the write-stream lemmas and the independent client parser.
C60 to C63: a lexicographic rank that every step but accept lowers (`System_rest.v`); what no enabled step implies; well-founded induction gives inevitability under every schedule.
C64 to C80: rules of MQTT 3.1.1 that the broker breaks. The rule is kept as `Cnn_statement` and refuted by a run or history; the claim is what the broker does instead, proved in full (`Prop_mqtt.v`).
C81, C82: system invariants; simulation of two histories that differ in times.
C83 to C85: a simulation between `Pool.v` and `System.v`; spinning read tasks are counted against connections whose bytes overrun the buffer; the rank of C60 with the number of free threads.
C86, C90: the tree, the sessions and the sends are related to the two lists of the reference broker event by event; then the system invariants of C48 to C51 and C61.
C91: the origin of each entry of the two lists of the reference broker, lifted by C86.
C87 to C89: what no enabled step implies, by cases on the handler and on each writer; the attacks contradict the third case. C88 also counts the reactions each written packet uses up.
C92: one direction from the invariants and C61, the other by constructing the schedule: one event at a time, writers run only to make room, then any steps until rest.
C93: the same as C89, from the bound on what follows a close request.
C94: a simulation in each direction between `Service.v` and `System.v`: sending an operation and taking an answer are not seen, serving it is the call.
C95: infinite runs as functions on the natural numbers, with fairness as a hypothesis (`fair_run` in `System_fair.v`; weak fairness for the handler and the writers, strong for the readers, written without excluded middle). `until` turns fairness into progress; the handler's program, the readers' rank and the packets still due are the measures. Existence is by a schedule that runs the broker to rest before each new peer.
C96: starting as a system of its own (`Startup.v`) around the states of `System.v`: bind an address, be ready, or take a step of the broker. The proof relates a state with fewer listeners to the state with all of them.
C97: C40/C41 (file to identities), C45/C46 (tool to file), C43/C48/C90 (identities to CONNACK) and C96 put together for the broker started with a file.
C98: the password file as a shared file with processes that read and write it piecewise (`Files.v`); an invariant with two phases, before and since the tool opened the file for writing; the mixtures are reached by explicit runs.
C99: a copy of the step function in which `remove_client` has room for a given number of nested calls (`Stack.v`); the height of the tree as a function of the filters named so far; the handler's program during a DISCONNECT as an invariant; then every run of `System.v` is a run of the limited broker or stops at the abort, which carries C92 over.

C100: a copy of the step function that accepts only while fewer than `limit` sockets are open (`Sockets.v`). A closed socket stays closed, so a state in which none is missing can be judged at the rest state it leads to, where C80 says which are closed; there the newcomers still own their ids because nobody else names them.

C101: distinct ids make the events in a client's name exactly the events of its connection, so the session a PINGREQ looks for is there (`has_session`), nobody is told to close, and the ways in which the handler ends (C53) are ruled out; the answers are then those of C90, and delivery is C63 with the subscriptions computed from the client's own packets (`own_history`).

C102: after a DISCONNECT nobody else brings the id back (`stays_away`), so the next PINGREQ asks for the connection to be closed, and C93's count applies from there.

C103, C104: a connection's CONNECT is handled once, so a connection that lost its session never owns an id again (`never_owner`) and gets no copies. `visit` says what every run comes to after one more client came to a quiet broker: exactly its events are added. A connection that has a session was never told to close (`owner_open`).

C105: `visit` again, with the copies counted by the reference broker's `ways`; the wait of the others from the handler's history invariant.

C106: where each read of a packet ends (`ends_from`, `cuts_text`): a decoder that asks for the bytes up to `e` by `get_bytes` while the buffer ends before `e` never returns. Before bytes 1.7 the room at the end of the buffer only shrinks, so byte 4096 of the stream is a fixed place. Since 1.7 the invariant is that the reads end where a packet ends, and that the last request of a packet is a text, so nothing is given back before the cut (`Traffic_facts.v`, `Prop_traffic.v`).

C107: each doomed connection either spins already or has a read step; with as many of them as threads, the rank of C85 goes down until all threads spin or the handler has stopped; from there an invariant (`Prop_doom.v`).

C108: two runs of the reference broker side by side (`alike`, `sends_without`): an event in another client's name changes neither the client's place nor its subscriptions, so it can be left out; then C86 and C61 (`Prop_apart.v`).

C109, C110: a variable's value is a string, and a string set at or above `mqtt.listeners_tcp` leaves a value that no later setting turns into an array (`spoilt`); what is set elsewhere does not touch the key. The order of the HashMap is any permutation (`Prop_settings.v`).
C124: the path is taken apart from its end, on the reversed bytes, and compared with a relation on paths written forwards (`renamed`, `nameless`); the start then follows from C110 and C41 (`Prop_config.v`).

C125: events are sorted into nine kinds on which the reference broker's answer and next state depend. States that agree in sessions and in the number of copies of each subscription cannot be told apart; for each two kinds that are not alike a context that tells them apart is given (`Prop_matter.v`).
C126: each count is a function of the state, and each step adds to the log exactly what it adds to that function (`adds`); a writer holding a packet makes up for the packet not yet done with (`Prop_records.v`).
C127: `Accept.v` adds the kernel's queues to `Sockets.v`; each step is a step of `Sockets.v` or leaves the broker as it is, and the records of who came and who entered differ by what is in the queues (`in_order`). What lasts for ever is C100 (`Prop_door.v`).
C128: counts of labels along a run of `System.v`, by induction on the run: what each task has done is recorded in the state (`c_read`, `c_sent`, `handled`, `log`), and the questions left in the handler's program are counted against the service they are put to. A step is a step of the model: steps inside the library calls it makes are not counted (`Prop_work.v`).

C129, C130: `Duplex.v` transcribes the combined stream a second time, with a result that keeps the state after an error and while waiting (the stream a caller has in hand when it drops the future). C129 maps these results to those of the halves' models; C130 compares `to_come` (buffered, then not yet arrived) and `put_so_far` (written, then buffered) before and after. `get_bytes` for more than the capacity never gets to wait a second time because it spins first, so it does not lose bytes.

C131: `StartLog.v` puts the records of the start around `Startup.v` and makes the first poll of the service's task, where it logs its start, a step of its own that any use of the service must follow. A record names an address as the settings give it. The records of main and of the service are read off the state by induction on the run; C126 counts the others.

C132: `Defaults.v`, case by case over the type numbers.

C133: `Tool.v` is the main function of ratelmq-passwd around `Passwd.v`. clap is represented by its documented rules for the settings the source uses (no repetition, `required`, `required_unless_present`, `conflicts_with`, `default_value`), applied to the list of options given; the specification of what is accepted is a permutation of the options wanted.

C134: the decoder of `Decoder.v` in a monad with one more operation (`Traces.v`); forgetting it gives `Decoder.v` (`as_quiet`). The records are computed on the plain bytes and carried to the stream by `run_t_plain`; the shape of the records of unfinished reads is proved on the stream itself, because a read that spins stops in the middle.

C135: joins three others. What a client sends is read back (`read_all_sent`), the orders of the packets are those of C92, and a socket that takes every write gets the encodings (C59). `says` and `mixes` speak of packets only, not of streams.

C136: `Abort.v` is the start of `Startup.v` on the threads of `Pool.v`, with the end of `Teardown.v` after a failing address. The panic drops `ctrl_c_tx`, which the tasks see as the signal.

C137, C138: `Launch.v` models build.rs, how Cargo reads what it prints, the version of main.rs and how dotenv sets variables. What `git rev-parse HEAD` prints in a repository without a commit (the word HEAD) is trusted, as are Cargo's and dotenv's rules given there.

C139: `Burst.v` adds the limits of `Stack.v` and `Drop.v` to `Abort.v`. When the runtime drops the service before the handler, the handler panics at its next operation (`task_step` in `Teardown.v`); after a start in good order this cannot happen, because main waits for the service and the handler first (C122).

C140: `made_at` finds in a history the last accepted CONNECT of a client id that nothing has ended; the proof goes along the history, one event at a time (`session_get_step`).

C141: `Library.v` has the repository as a record of functions, as the trait has it, so that `SessionService` can be over any. `publish` is a program of the same kind as those of the handler, and equal to one of them.

C142: `Prop_full.v` writes the text of every packet and event out field by field, without the helpers of `Logging.v` that follow derived `Debug` (`struct`, `tuple`, `commas`), and puts trace and debug records in front of what C113 says for level info.

C143: one equation per connection and task, kept by every step: the trace records so far are a function of the packets read (of the packets taken from the queue) and of how the task stands. That the write task never panics is `write_ok`; that a failing read is the failure of the whole byte sequence is `reads_read_all`.

C144: a prefix property of every part of the text of a packet ("told apart whatever follows"), put together field by field; lists by the comma or bracket that follows an element, numbers by the first byte that is no digit. The premise `legible` is about the Debug of str for the texts concerned and is proved for ASCII.

C145: the entries of the tree, path by path (`entries_of`), are a permutation of the list of subscriptions of the reference broker, by counting each pair of client and filter on both sides (`held_entries`, `ref_subs`); sizes follow. A lost connection without DISCONNECT takes nothing away at all (C39), so the visits are the case in which the broker does clean up. The visits are a history of events of the handler; a run of the whole system is given for one visit only.

C146: none of the three texts of a quality of service is the end of another, so the end of the text of a subscription tells which it is and the topic is what is left after taking it away.

C111: in `System.v` everything a peer does is chosen when it is accepted. A state of `Live.v` is foreseen if for whatever the peers will still do a run of `System.v` has come to it with peers that decided so beforehand; every act keeps this (`Live_facts.v`), because a read or a write that has returned does not depend on what comes later.

C55: binary32 arithmetic by the standard library's `SpecFloat`, checked on the whole finite domain and lifted.

No property is outside the model altogether. Time passing (C56) and fairness (C39, C54, C57) are represented
by explicit labels and by quantifying over schedules.

## Trusted base

* Coq's kernel (8.16.1), including its virtual machine (`vm_compute` in concrete runs and in C55).
* Axioms: none. `Assumptions.v` prints the assumptions of each theorem of MANIFEST.json during the build and
  every answer is `Closed under the global context`. (Loading the standard library's `lia` makes seven module
  parameters of `Coq.ssr.ssrunder` visible in the environment; no theorem depends on them.)
* The reading of the Rust source. Each definition cites file and lines.
* The behaviour of libraries, as stated in comments where they are modelled: `bytes::BytesMut` 1.x before and since 1.7
  (capacity after `advance` and `split_to`, growth), tokio (`read_buf`, `write_buf`, `mpsc` channels of size 32, `select!`,
  `oneshot`, `broadcast`), std (`str` functions, `HashMap`, `read_to_string`), the regex crate's replacement
  syntax and leftmost matching, the config crate 0.10 as far as `Settings::new` uses it (listed at the heads of `Settings.v` and `ConfigFile.v`).

## What is modelled

* `src/mqtt/transport/mqtt_bytes_stream.rs`: both stream halves, all methods, and the combined `MqttBytesStream`
  (`Duplex.v`), which the broker does not use.
* `src/mqtt/transport/packet_decoder.rs`, `packet_encoder.rs`, `src/mqtt/packets/*`: all of it.
* `src/mqtt/listener.rs`: accept, `handle_connection`, both loops.
* `src/broker/client_packet_handler.rs`, `src/broker/messaging/*`, `src/broker/session/*`: all of it.
* `src/broker/authentication.rs`; `ratelmq-passwd/src/main.rs` from the options given to the written file (`Tool.v`).
* `src/settings/mod.rs`: which file is read (`ConfigFile.v`), the merge of file and environment and the reading of the settings
  (`Settings.v`).
* `src/application.rs`, `src/main.rs`: the start (`Startup.v`), the tasks started and the shutdown sequence.

## What is not modelled

* The TOML parser, how dotenv parses a line and where it looks for its file, address parsing and binding are represented by their results (any), and so are the settings
  everywhere but in `Settings.v`. Names of variables with characters other than letters, digits and underscores. TLS
  is absent.
* Of logging: what `env_logger` puts around a record and its filter by module; and the messages of panics (they do not go through the logger). `Accept.v` has the error of a failed accept, `Traces.v` the records of `get_string`, `StartLog.v` those of the start and `Logging.v` all others; the `Debug` of addresses, senders, non-ASCII strings, `io::Error` and of the reason of a refusal are parameters.
* Instructions to Cargo in git's output other than the hash, how clap splits a command line into options (`Tool.v` and
  `ConfigFile.v` start from the options).
* argon2, chrono, uuid: results are parameters (any value), except the range of chrono's instants (C55).
* Unicode case folding: a parameter, assumed to be reflexive and to keep colons and newlines apart.
* The tokio scheduler: any enabled task may take the next step. In `System.v` a task that spins is only stuck;
  that it also occupies a worker thread is represented in `Pool.v` (C83 to C85, C107), without tokio's run queues and
  its I/O driver.
* Memory exhaustion, other than the capacity limit of a single allocation, and stack use other than the recursion
  of `remove_client` (`Stack.v`) and of dropping the tree when the service ends (`Drop.v`), counted in nested calls, not
  bytes. The runtime is never torn down with the service still alive (C122_main_is_last), unless an address cannot be
  bound while the process starts (`Abort.v`); how deep the drop of the tree goes then is in `Burst.v`, where every thread
  has the same room.
* File descriptors other than the client sockets counted in `Sockets.v` and `Accept.v`. Only these two know the limit, only
  `Accept.v` the kernel's queues of connections not yet accepted; elsewhere any client can be accepted at any time.
* In `System.v` and `Pool.v` no step is taken after `main` returns; the teardown that follows is in `Teardown.v` (C122),
  as tokio's documentation describes it, without the ways a process can be killed from outside.
* `src/broker/keepalive_checker.rs` is commented out in the source, so it has no model (C56 is about its absence).

C112: the argument of C95 again for the runs of `Live.v` (`Live_fair.v`), with the invariants carried over by C111 and "the same task" weakened to "the same but for what is in its sockets". The measure of a read task is the number of the packets in question it has not read, not the bytes, which may grow. Strong fairness is asked only of read tasks that wait for a place in the handler's channel, and is stated relative to an escape `Q`; classically that is the usual strong fairness. C119 does without it.

C117: the events of a connection are made of its packets in order (`flow_ok`), and no packet is read before its last byte is there (`reads_pending`), which bounds what has been handled from above; every packet other than PUBLISH that was sent to a connection is one of the answers to its own events (C90), at most one each, which bounds it from below. The order of events only grows at its end, so the two bounds at one moment order the two packets for ever.

C118: the messages of a connection are read off the reference broker, where each event sends its copies in one go; the causal part combines this with the bounds of C117.

C119: `Fifo.v` puts the queue of tokio's bounded mpsc beside the system: who waits, and who has been given a place and not used it. Each step is a step of `Live.v` or joins the queue. The measure of a waiting task is 33 times those before it plus those who hold an unused place; pushes lower it by weak fairness, and when nobody holds a place the channel is full, so that the next moment at which there is room must come after a take. The queue of tokio is trusted as described there (tokio is not in /repo).

C113-C116: `step_entries` gives the log records of a step of `System.v`. Readers and writers log fixed texts above trace (`other_entries`); for the handler an invariant (`log_inv`) says that the log so far is the beginning of what the events taken leave behind (`handler_log`). C113 then describes one event at a time by the reference broker; C114 relates two histories by `same_event` and keeps `alike` (same subscriptions, same clients with a session) along them; C115 follows the entry made when an event is taken; C116 runs the broker on the visitor's bytes from an arbitrary idle state.

C120: `left_at` gives what a decoder program has still to do when the bytes have run out, so that the filters collected so far are visible in it; `asks` collects every size for which a program may ask for a buffer.

C121: the three functions on the tree again, counting (`*_counted`), proved to compute the same. The nodes are counted by their paths from the root: distinct, because keys are, and exactly the beginnings of the filters named.

C122: a run of the process is a run of `Pool.v` followed by one in which tasks step, spin or are dropped. The measure of C62 (`rank`) is lowered by dropping, too, so that every run is finite; `on_track` carries what C84 needs (a task that spins has a peer that overruns) past the end of `main`, where states are no longer reachable states of `System.v`. `Prop_last.v` shows that main ends last; the case in which its `send` fails needs a broker without listeners, which has no clients either, so that its handler lives.

C123: the height of the tree is one more than the longest filter named in the history of the handler (C99's invariant, here kept past a panic: `calm` says that a handler program asks the service nothing more once it has sent, so a failed send finds the tree as the program leaves it). `C123_every_run` inducts along the finite runs of C62; where it comes to rest the service would have to be over, which the invariant excludes.
