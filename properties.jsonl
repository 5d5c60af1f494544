{"id": "C01", "title": "Remaining length survives write then read", "statement": "Every remaining length the broker writes in at most three bytes (any value below 2097152) is read back as the same number, and reading it consumes exactly the bytes that were written, whatever bytes follow.", "quantifier": "every length below 2^21 and every trailing byte sequence", "why_tests_cant": "two million values times unbounded suffixes", "anchors": ["src/mqtt/transport/packet_encoder.rs::encode_remaining_length", "src/mqtt/transport/packet_decoder.rs::decode_remaining_length"]}
{"id": "C02", "title": "Every MQTT-legal remaining length is accepted", "statement": "A client may declare any remaining length from 0 to 268435455 in MQTT's variable length form (one to four bytes) and the broker reads that value.", "quantifier": "every one to four byte variable-length integer", "why_tests_cant": "268 million encodings; the boundary at four bytes is not sampled", "anchors": ["src/mqtt/transport/packet_decoder.rs::decode_remaining_length"]}
{"id": "C03", "title": "Remaining length is written in MQTT's form", "statement": "For every 64-bit length the bytes written are MQTT's variable length integer: base-128 little-endian digits, the top bit set on every byte but the last, no redundant trailing zero digit, and the digits sum to the length.", "quantifier": "every u64 value", "why_tests_cant": "2^64 inputs", "anchors": ["src/mqtt/transport/packet_encoder.rs::encode_remaining_length"]}
{"id": "C04", "title": "PUBLISH survives write then read", "statement": "A PUBLISH packet whose packet id is present exactly when its QoS is above 0 and whose topic fits the protocol's limit and whose body is below 2097152 bytes (longer ones are C02) is read back as the same packet (topic, payload, QoS, retain, dup, packet id) from the bytes the broker writes, consuming exactly those bytes.", "quantifier": "every well-formed publish packet and every trailing byte sequence", "why_tests_cant": "unbounded topics, payloads and suffixes", "anchors": ["src/mqtt/transport/packet_encoder.rs::write_publish", "src/mqtt/transport/packet_decoder.rs::decode_publish"]}
{"id": "C05", "title": "Acknowledgement packets survive write then read", "statement": "PUBACK, PUBREC, PUBREL and PUBCOMP with any packet id are read back as the same packet from the bytes the broker writes, consuming exactly those bytes.", "quantifier": "four packet kinds, every 16-bit packet id, every trailing byte sequence", "why_tests_cant": "all ids and suffixes", "anchors": ["src/mqtt/transport/packet_encoder.rs::write_packet_with_packet_id", "src/mqtt/transport/packet_decoder.rs::decode_packet_with_packet_id"]}
{"id": "C06", "title": "CONNECT is read as sent", "statement": "Every MQTT 3.1.1 CONNECT without a will is read as exactly the client id, keep alive, clean-session flag, user name and password it carries, consuming exactly its bytes.", "quantifier": "every protocol name, level, client id, keep alive, clean flag, optional credentials", "why_tests_cant": "unbounded strings and all flag combinations", "anchors": ["src/mqtt/transport/packet_decoder.rs::decode_connect"]}
{"id": "C07", "title": "CONNECT with a will is read as sent", "statement": "Every MQTT 3.1.1 CONNECT that carries a will message is read with its own credentials (the will fields are not mistaken for them) and consumes exactly its bytes.", "quantifier": "every CONNECT with the will flag set", "why_tests_cant": "unbounded wills; no test sends one", "anchors": ["src/mqtt/transport/packet_decoder.rs::decode_connect"]}
{"id": "C08", "title": "SUBSCRIBE is read as sent", "statement": "Every MQTT SUBSCRIBE with one or more topic filters and a remaining length of at most three bytes (longer ones are C02) is read as exactly its packet id and its filters with requested QoS, in order, consuming exactly its bytes.", "quantifier": "every nonempty list of (filter, QoS 0..2) and packet id", "why_tests_cant": "unbounded lists", "anchors": ["src/mqtt/transport/packet_decoder.rs::decode_subscribe"]}
{"id": "C09", "title": "UNSUBSCRIBE is read as sent", "statement": "Every MQTT UNSUBSCRIBE with one or more topic filters and a remaining length of at most three bytes (longer ones are C02) is read as exactly its packet id and filters, in order, consuming exactly its bytes.", "quantifier": "every nonempty list of filters and packet id", "why_tests_cant": "unbounded lists", "anchors": ["src/mqtt/transport/packet_decoder.rs::decode_unsubscribe"]}
{"id": "C10", "title": "Malformed packets are never accepted", "statement": "No input whose first byte carries wrong reserved flags for PUBACK/PUBREC/PUBREL/PUBCOMP/SUBSCRIBE/UNSUBSCRIBE, whose SUBSCRIBE payload is empty or has a QoS above 2, whose UNSUBSCRIBE payload is empty, whose PUBLISH QoS is 3, or which contains a string that is not UTF-8, ever yields a packet; every packet that is yielded has fields within protocol limits.", "quantifier": "every byte stream (in release builds, for SUBSCRIBE and UNSUBSCRIBE, of fewer than 2^64 bytes: in a longer one the remaining length, a u64, can wrap around)", "why_tests_cant": "unbounded adversarial inputs", "anchors": ["src/mqtt/transport/packet_decoder.rs::read_packet", "src/mqtt/transport/packet_decoder.rs::validate_first_byte"]}
{"id": "C11", "title": "Strings are accepted exactly when they are UTF-8", "statement": "A string field is accepted if and only if its bytes are the UTF-8 encoding of some sequence of Unicode scalar values, and a rejected one is reported as invalid data.", "quantifier": "every byte sequence", "why_tests_cant": "unbounded byte sequences with many boundary classes (overlongs, surrogates, > U+10FFFF)", "anchors": ["src/mqtt/transport/mqtt_bytes_stream.rs::get_string"]}
{"id": "C12", "title": "Packet boundaries are respected", "statement": "When a packet is read successfully the bytes consumed are exactly the fixed header plus the declared remaining length, so the next packet starts at the right place.", "quantifier": "every byte stream that yields a packet (in release builds, for SUBSCRIBE and UNSUBSCRIBE, of fewer than 2^64 bytes)", "why_tests_cant": "unbounded inputs; a desynchronised stream turns payload bytes into commands", "anchors": ["src/mqtt/transport/packet_decoder.rs::read_packet"]}
{"id": "C13", "title": "No packet before all its bytes arrived", "statement": "If only a proper prefix of a packet's bytes has arrived, no packet is produced: the reader waits, or reports a connection error if the peer closed.", "quantifier": "every packet, every proper prefix, every way the prefix is split into TCP segments", "why_tests_cant": "all cut points of all packets", "anchors": ["src/mqtt/transport/packet_decoder.rs::read_packet", "src/mqtt/transport/mqtt_bytes_stream.rs::wait_for_data"]}
{"id": "C14", "title": "Reading does not depend on TCP segmentation", "statement": "The sequence of packets read from a connection depends only on the bytes the peer sent, not on how they were split into reads, nor on buffer allocation choices: two runs on the same bytes agree on every packet both of them produce.", "quantifier": "every byte stream, every pair of read schedules and allocation policies", "why_tests_cant": "exponentially many segmentations", "anchors": ["src/mqtt/transport/mqtt_bytes_stream.rs::wait_for_data", "src/mqtt/transport/mqtt_bytes_stream.rs::get_bytes", "src/mqtt/transport/packet_decoder.rs::read_packet"]}
{"id": "C15", "title": "Reading a packet always finishes", "statement": "Once all bytes of a well-formed packet have been delivered, the broker finishes reading it (it never spins forever).", "quantifier": "every well-formed packet, every buffer state, every read schedule", "why_tests_cant": "depends on the hidden spare capacity of the read buffer at each field boundary", "anchors": ["src/mqtt/transport/mqtt_bytes_stream.rs::get_bytes"]}
{"id": "C16", "title": "No input makes the reader panic", "statement": "No byte sequence sent by a client makes the packet reader panic: malformed input is reported as an error.", "quantifier": "every byte stream, debug and release arithmetic", "why_tests_cant": "adversarial inputs are unbounded", "anchors": ["src/mqtt/transport/packet_decoder.rs::read_packet", "src/mqtt/transport/packet_decoder.rs::decode_publish", "src/mqtt/transport/packet_decoder.rs::decode_subscribe", "src/mqtt/transport/packet_decoder.rs::decode_unsubscribe", "src/mqtt/packets/mod.rs::QoS::from_bits"]}
{"id": "C17", "title": "A conforming client understands every packet the broker writes", "statement": "For CONNACK, PUBLISH, PUBACK, PUBREC, PUBREL, PUBCOMP, SUBACK, UNSUBACK and PINGRESP, an independent MQTT 3.1.1 parser run on the written bytes recovers exactly the packet, with nothing left over.", "quantifier": "every packet of the nine writable kinds within protocol limits", "why_tests_cant": "unbounded payloads and return-code lists", "anchors": ["src/mqtt/transport/packet_encoder.rs::write_packet"]}
{"id": "C18", "title": "Bytes are written once, in order, none lost", "statement": "For any sequence of packets written to a connection and any pattern of short writes, the bytes accepted by the socket followed by the bytes still buffered are exactly the concatenation of the packets' encodings.", "quantifier": "every packet sequence, every short-write pattern, every allocation policy", "why_tests_cant": "exponentially many short-write patterns", "anchors": ["src/mqtt/transport/mqtt_bytes_stream.rs::put_bytes", "src/mqtt/transport/mqtt_bytes_stream.rs::write_buffer_if_too_small", "src/mqtt/transport/mqtt_bytes_stream.rs::finish_packet"]}
{"id": "C19", "title": "A finished packet has been handed to the socket", "statement": "When writing a packet reports success, all of the packet's bytes have been accepted by the socket.", "quantifier": "every packet and every short-write pattern", "why_tests_cant": "short writes do not happen on a loopback test", "anchors": ["src/mqtt/transport/mqtt_bytes_stream.rs::finish_packet"]}
{"id": "C20", "title": "Writing a packet always finishes", "statement": "Writing any packet to a socket that accepts data terminates, whatever the packet size, buffer state and short-write pattern.", "quantifier": "every packet, every reachable buffer state, every write pattern", "why_tests_cant": "the loop's progress depends on hidden buffer capacity", "anchors": ["src/mqtt/transport/mqtt_bytes_stream.rs::put_bytes"]}
{"id": "C21", "title": "A relayed PUBLISH is the publisher's PUBLISH", "statement": "A PUBLISH read from a publisher and written to a subscriber is seen by the subscriber as the same topic, payload, QoS, retain flag, dup flag and packet id; if the publisher used the shortest length form the bytes are identical.", "quantifier": "every byte stream that reads as a PUBLISH", "why_tests_cant": "unbounded payloads; needs decode and encode to be mutual inverses", "anchors": ["src/mqtt/transport/packet_decoder.rs::decode_publish", "src/mqtt/transport/packet_encoder.rs::write_publish", "src/broker/client_packet_handler.rs::on_publish"]}
{"id": "C22", "title": "A message reaches exactly the matching subscriptions", "statement": "After any history of subscribe, unsubscribe and disconnect requests, the clients selected for a topic name without wildcards are, with multiplicity, exactly the clients of the live subscriptions whose filter matches by MQTT's + and # rules (with # covering one or more further levels).", "quantifier": "every history, every topic", "why_tests_cant": "unbounded histories and tree shapes", "anchors": ["src/broker/messaging/subscriptions_repository.rs::subscribe", "src/broker/messaging/subscriptions_repository.rs::subscribed_clients", "src/broker/messaging/subscriptions_repository.rs::unsubscribe", "src/broker/messaging/subscriptions_repository.rs::remove_client"]}
{"id": "C23", "title": "# also matches the parent level", "statement": "As MQTT requires, a filter ending in /# matches the topic it is rooted at (a/# matches a).", "quantifier": "every filter ending in /#", "why_tests_cant": "stated by the protocol for all filters; not among the tests", "anchors": ["src/broker/messaging/subscriptions_repository.rs::subscribed_clients"]}
{"id": "C24", "title": "Wildcards do not match $-topics", "statement": "A filter starting with + or # does not match a topic starting with $, as MQTT requires.", "quantifier": "every filter and topic", "why_tests_cant": "all topics", "anchors": ["src/broker/messaging/subscriptions_repository.rs::subscribed_clients"]}
{"id": "C25", "title": "UNSUBSCRIBE stops delivery", "statement": "After a client unsubscribes from a filter it no longer receives messages because of that filter, and its other subscriptions and other clients' subscriptions are unaffected.", "quantifier": "every history ending in an unsubscribe, every topic", "why_tests_cant": "depends on the whole history (repeated subscriptions)", "anchors": ["src/broker/messaging/subscriptions_repository.rs::unsubscribe"]}
{"id": "C26", "title": "DISCONNECT forgets the client's subscriptions", "statement": "After a client disconnects, no topic selects that client, until it subscribes again; other clients are unaffected.", "quantifier": "every history ending in a disconnect, every topic", "why_tests_cant": "depends on the whole history (repeated subscriptions)", "anchors": ["src/broker/messaging/subscriptions_repository.rs::remove_client", "src/broker/messaging/messaging_service.rs::disconnect"]}
{"id": "C27", "title": "Clients do not interfere", "statement": "How often a client is selected for a topic depends only on that client's own subscribe, unsubscribe and disconnect requests: other clients' requests can be removed from the history without changing it.", "quantifier": "every pair of histories agreeing on one client's requests, every topic", "why_tests_cant": "relational property over all interleavings", "anchors": ["src/broker/messaging/subscriptions_repository.rs::subscribe", "src/broker/messaging/subscriptions_repository.rs::unsubscribe", "src/broker/messaging/subscriptions_repository.rs::remove_client"]}
{"id": "C28", "title": "Subscribing again replaces, not duplicates", "statement": "A client that subscribes twice to the same filter receives each matching message once (MQTT: the new subscription replaces the old one).", "quantifier": "every history with a repeated subscription", "why_tests_cant": "depends on history", "anchors": ["src/broker/messaging/subscriptions_repository.rs::subscribe"]}
{"id": "C29", "title": "At most one copy per live subscription", "statement": "A published message is selected at most once for each live subscription, whatever topic name the publisher uses.", "quantifier": "every history and every topic name, including names containing + or #", "why_tests_cant": "topic names are attacker-controlled", "anchors": ["src/broker/messaging/subscriptions_repository.rs::subscribed_clients"]}
{"id": "C30", "title": "SUBACK answers every filter", "statement": "A SUBSCRIBE with n filters is answered by one SUBACK with the same packet id and n return codes, in order, each granting QoS 0, sent to the requesting connection after all n subscriptions took effect.", "quantifier": "every subscribe packet in every broker state", "why_tests_cant": "unbounded lists and states", "anchors": ["src/broker/client_packet_handler.rs::on_subscribe"]}
{"id": "C31", "title": "A session exists exactly between CONNECT and DISCONNECT", "statement": "A client id has a session exactly when its last accepted CONNECT came after its last DISCONNECT.", "quantifier": "every history of client events", "why_tests_cant": "all histories", "anchors": ["src/broker/client_packet_handler.rs::on_connect", "src/broker/client_packet_handler.rs::on_disconnect", "src/broker/session/session_repository.rs::InMemorySessionRepository"]}
{"id": "C32", "title": "The latest connection owns the client id", "statement": "Messages for a client id go to the connection of its most recent accepted CONNECT and to no other connection.", "quantifier": "every history of client events, with arbitrarily many connections sharing client ids", "why_tests_cant": "all histories and reuse patterns", "anchors": ["src/broker/client_packet_handler.rs::on_connect", "src/broker/messaging/messaging_service.rs::senders_to_publish"]}
{"id": "C33", "title": "The session-present flag is truthful", "statement": "The session-present flag in CONNACK is set exactly when the broker kept state (a session or subscriptions) for that client id from an earlier connection that did not ask for a clean session.", "quantifier": "every history of client events", "why_tests_cant": "depends on history", "anchors": ["src/broker/client_packet_handler.rs::on_connect", "src/broker/messaging/messaging_service.rs::run"]}
{"id": "C34", "title": "Session count is the number of connected client ids", "statement": "The number of sessions equals the number of distinct client ids whose last accepted CONNECT is later than their last DISCONNECT.", "quantifier": "every history of client events", "why_tests_cant": "all histories", "anchors": ["src/broker/messaging/messaging_service.rs::session_count"]}
{"id": "C35", "title": "PINGREQ is answered", "statement": "A PINGREQ from a client that has a session is answered with exactly one PINGRESP on the same connection; from a client without a session the connection's writer is told to close; nothing else changes.", "quantifier": "every state and client", "why_tests_cant": "all states", "anchors": ["src/broker/client_packet_handler.rs::on_ping_req"]}
{"id": "C36", "title": "UNSUBACK echoes the packet id", "statement": "Each UNSUBSCRIBE is answered by exactly one UNSUBACK with its packet id, on the requesting connection, after the unsubscription took effect.", "quantifier": "every unsubscribe packet in every state", "why_tests_cant": "unbounded lists and states", "anchors": ["src/broker/client_packet_handler.rs::on_unsubscribe"]}
{"id": "C37", "title": "The broker only sends packets it can write", "statement": "Every packet the handler queues for a client is one of the kinds the writer implements and satisfies its size limits, so the writer never panics.", "quantifier": "every history of client events with packets produced by the reader", "why_tests_cant": "all histories", "anchors": ["src/broker/client_packet_handler.rs::on_packet", "src/mqtt/transport/packet_encoder.rs::write_packet"]}
{"id": "C38", "title": "A stale connection cannot end a newer session", "statement": "After a client id reconnected on a new connection, a DISCONNECT arriving on the old connection does not remove the new session or its subscriptions.", "quantifier": "every interleaving of two connections with the same client id", "why_tests_cant": "needs a particular cross-connection order", "anchors": ["src/broker/client_packet_handler.rs::on_disconnect", "src/broker/messaging/messaging_service.rs::disconnect"]}
{"id": "C39", "title": "A lost connection is cleaned up", "statement": "When a client's TCP connection ends without DISCONNECT, its session and subscriptions are eventually removed.", "quantifier": "every history in which a connection ends abruptly", "why_tests_cant": "liveness over all executions", "anchors": ["src/mqtt/listener.rs::connection_read_loop", "src/broker/client_packet_handler.rs::on_connection_lost"]}
{"id": "C40", "title": "Authentication decision is exact", "statement": "authenticate accepts a user name and password exactly when the user is known, its stored hash parses and the password verifies against it; otherwise it reports user-not-found, encryption error or invalid password respectively.", "quantifier": "every password database, user name, password, and every behaviour of the hash library", "why_tests_cant": "unbounded databases", "anchors": ["src/broker/authentication.rs::authenticate"]}
{"id": "C41", "title": "The password file means what it says", "statement": "Loading a password file made of user:hash lines succeeds and maps each user to the hash on the last line naming it (hashes may contain colons); any line without a colon makes loading fail.", "quantifier": "every file content", "why_tests_cant": "unbounded files", "anchors": ["src/broker/authentication.rs::FileIdentityManager::new"]}
{"id": "C42", "title": "A rejected login gets a refusal and no session", "statement": "A CONNECT whose credentials fail is answered with CONNACK not-authorized followed by a close request to the writer, and changes neither sessions nor subscriptions.", "quantifier": "every state, every credentials that fail", "why_tests_cant": "all states", "anchors": ["src/broker/client_packet_handler.rs::on_connect"]}
{"id": "C43", "title": "A rejected connection has no further effect", "statement": "After a connection's CONNECT was refused, nothing sent on that connection reaches subscribers or changes broker state.", "quantifier": "every continuation after a refused CONNECT", "why_tests_cant": "all continuations", "anchors": ["src/broker/client_packet_handler.rs::on_packet", "src/mqtt/listener.rs::connection_read_loop"]}
{"id": "C44", "title": "No client can crash the broker's event handler", "statement": "No sequence of client packets, on any number of connections, makes the central handler task panic (which would stop service for everyone).", "quantifier": "every history and interleaving", "why_tests_cant": "adversarial histories and races", "anchors": ["src/broker/client_packet_handler.rs::on_connect", "src/broker/client_packet_handler.rs::on_ping_req", "src/broker/client_packet_handler.rs::on_subscribe"]}
{"id": "C45", "title": "ratelmq-passwd sets one password", "statement": "After setting a password for a user, the broker loads the file and that user authenticates with the new password, and every other user's entry is unchanged.", "quantifier": "every well-formed password file, user, password", "why_tests_cant": "all files; interaction of names that contain one another", "anchors": ["ratelmq-passwd/src/main.rs::main", "src/broker/authentication.rs::FileIdentityManager::new"]}
{"id": "C46", "title": "ratelmq-passwd deletes one user", "statement": "After deleting a user, the broker loads the file, that user is unknown, and every other user's entry is unchanged; deleting an absent user leaves the file alone.", "quantifier": "every well-formed password file and user", "why_tests_cant": "all files", "anchors": ["ratelmq-passwd/src/main.rs::main"]}
{"id": "C47", "title": "Hashes survive the regex replacement", "statement": "The $ escaping applied to the replacement text makes the regex replacement insert exactly the new entry, for every entry text.", "quantifier": "every entry text", "why_tests_cant": "unbounded texts with $ sequences such as $1 or ${x}", "anchors": ["ratelmq-passwd/src/main.rs::main"]}
{"id": "C48", "title": "CONNACK comes first and once", "statement": "On every connection the first packet the broker sends is a CONNACK, and it sends no second CONNACK on that connection.", "quantifier": "every execution with any number of connections", "why_tests_cant": "all interleavings", "anchors": ["src/mqtt/listener.rs::connection_read_loop", "src/broker/client_packet_handler.rs::on_connect"]}
{"id": "C49", "title": "Nothing happens before CONNECT", "statement": "A connection whose first packet is not a readable CONNECT causes no client event: no session, subscription or message results from it, whatever follows.", "quantifier": "every byte stream that does not start with a readable CONNECT", "why_tests_cant": "unbounded inputs", "anchors": ["src/mqtt/listener.rs::connection_read_loop"]}
{"id": "C50", "title": "No invented messages", "statement": "Every PUBLISH the broker sends on any connection is equal to a PUBLISH some client sent earlier.", "quantifier": "every execution", "why_tests_cant": "all interleavings", "anchors": ["src/broker/client_packet_handler.rs::on_publish"]}
{"id": "C51", "title": "Messages keep their order", "statement": "For any publishing connection and any receiving connection, the publisher's messages are sent to the receiver in the order the publisher sent them.", "quantifier": "every execution, every pair of connections", "why_tests_cant": "all interleavings and queue states", "anchors": ["src/broker/client_packet_handler.rs::on_publish", "src/mqtt/listener.rs::connection_write_loop"]}
{"id": "C52", "title": "Each publish is queued for exactly the current matching subscribers", "statement": "Handling a PUBLISH queues, for each connection, exactly as many copies as there are live matching subscriptions of client ids whose session belongs to that connection, and changes no broker state.", "quantifier": "every reachable broker state and every publish", "why_tests_cant": "all states", "anchors": ["src/broker/client_packet_handler.rs::on_publish", "src/broker/messaging/messaging_service.rs::senders_to_publish"]}
{"id": "C53", "title": "The handler stops only by shutdown or a known fault", "statement": "The handler task stays alive until shutdown unless a CONNECT has a user name without a password or it answers a connection whose writer was told to close; a stopped handler never processes anything again.", "quantifier": "every execution", "why_tests_cant": "all interleavings", "anchors": ["src/broker/client_packet_handler.rs::run"]}
{"id": "C54", "title": "A slow subscriber does not stall the others", "statement": "If one subscriber stops reading its socket, events of other clients are still processed.", "quantifier": "every execution with one stalled connection", "why_tests_cant": "needs a full channel and full socket buffer", "anchors": ["src/broker/client_packet_handler.rs::on_publish", "src/mqtt/listener.rs::handle_connection"]}
{"id": "C55", "title": "Keep-alive deadline is one and a half periods", "statement": "A session with keep-alive k > 0 counts as expired exactly when at least floor(1.5*k) seconds have passed since its last activity (the single-precision arithmetic loses nothing); with k = 0 it never expires.", "quantifier": "every 16-bit keep alive and every pair of times", "why_tests_cant": "65536 values times all times, in floating point", "anchors": ["src/broker/session/session_entity.rs::is_keep_alive_expired"]}
{"id": "C56", "title": "Idle clients are disconnected", "statement": "A client that stays silent for one and a half times its keep-alive is disconnected by the broker.", "quantifier": "every execution", "why_tests_cant": "liveness over time", "anchors": ["src/broker/keepalive_checker.rs", "src/broker/messaging/messaging_service.rs::run"]}
{"id": "C57", "title": "Shutdown completes", "statement": "After ctrl-c the listeners, the handler and the messaging service all stop, so the program exits.", "quantifier": "every execution", "why_tests_cant": "all interleavings", "anchors": ["src/application.rs::run", "src/broker/client_packet_handler.rs::run", "src/broker/messaging/messaging_service.rs::run"]}
{"id": "C58", "title": "Queues stay bounded", "statement": "At no time are more than 32 events queued for one connection or more than 32 client events queued for the handler.", "quantifier": "every execution", "why_tests_cant": "all interleavings", "anchors": ["src/mqtt/listener.rs::handle_connection", "src/application.rs::run"]}
{"id": "C59", "title": "Bytes on the wire are the packets sent", "statement": "In every execution the bytes a client's connection has accepted, while no write on it failed, are a prefix of the encodings of the packets the broker sent it, in order, and a conforming client reading them obtains the first of these packets and nothing else, even when the socket takes writes in parts or blocks in the middle of a packet; on a socket that takes every write whole it obtains all of them as soon as no packet is being written.  When writes fail, each packet still contributes a prefix of its encoding, in order.", "quantifier": "every execution, every connection, every pattern of short writes", "why_tests_cant": "all interleavings and write sizes", "anchors": ["src/mqtt/transport/packet_encoder.rs::write_packet", "src/mqtt/listener.rs::handle_connection", "src/mqtt/transport/packet_encoder.rs"]}
{"id": "C60", "title": "Activity dies out", "statement": "Without new connections the broker takes only finitely many steps from any reachable state, whatever bytes its clients have sent.", "quantifier": "every reachable state, every schedule", "why_tests_cant": "termination over infinitely many schedules", "anchors": ["src/mqtt/listener.rs::handle_connection", "src/broker/client_packet_handler.rs::run", "src/application.rs::run"]}
{"id": "C61", "title": "Nothing is left undone", "statement": "When the broker can do nothing more by itself, its handler is alive and no socket has stopped taking bytes, then every complete packet that each client sent has been read and handled in order, and every packet that handling owes a connection has been sent on it, up to the first request to close it.", "quantifier": "every reachable state at rest", "why_tests_cant": "all interleavings", "anchors": ["src/mqtt/listener.rs::handle_connection", "src/broker/client_packet_handler.rs::run"]}
{"id": "C62", "title": "Work owed gets done", "statement": "From every reachable state in which no socket has stopped taking bytes, every schedule leads in finitely many steps to a state of rest, in which either the handler has ended or everything is up to date as in C61.", "quantifier": "every reachable state, every schedule", "why_tests_cant": "liveness over all schedules", "anchors": ["src/mqtt/listener.rs::handle_connection", "src/broker/client_packet_handler.rs::run"]}
{"id": "C63", "title": "A published message arrives", "statement": "When the broker is at rest as in C61, every PUBLISH a client sent after its CONNECT was handled, and every connection that then owned a client id with a matching live subscription, and was not closed by the broker, has been sent the message; if its socket takes writes whole, its client has read it.", "quantifier": "every reachable state at rest, every message with a name without wildcards", "why_tests_cant": "all interleavings and all subscription histories", "anchors": ["src/broker/client_packet_handler.rs::on_publish", "src/broker/messaging/subscriptions_repository.rs::subscribed_clients", "src/mqtt/listener.rs::handle_connection"]}
{"id": "C64", "title": "No QoS 1 or 2 handshakes", "statement": "In every execution the broker sends clients only CONNACK, SUBACK, UNSUBACK, PINGRESP and PUBLISH, and a PUBACK, PUBREC, PUBREL or PUBCOMP it receives changes nothing and is not answered. So MQTT's rule that a QoS 1 PUBLISH is answered by PUBACK is broken.", "quantifier": "every execution, every client packet", "why_tests_cant": "all interleavings and inputs; absence of a reply for ever", "anchors": ["src/broker/client_packet_handler.rs::on_publish", "src/broker/client_packet_handler.rs::on_packet"]}
{"id": "C65", "title": "Granted and delivered QoS", "statement": "In every execution every SUBACK grants QoS 0 to each subscription, whatever was requested, and a message is sent above QoS 0 only if it was published above QoS 0. So MQTT's rule that the granted QoS bounds the QoS of delivery is broken.", "quantifier": "every execution, every subscription and message", "why_tests_cant": "all interleavings and inputs", "anchors": ["src/broker/client_packet_handler.rs::on_subscribe", "src/broker/client_packet_handler.rs::on_publish", "src/broker/messaging/subscriptions_repository.rs::subscribe"]}
{"id": "C66", "title": "Second CONNECT is ignored", "statement": "A CONNECT received on a connection after the first changes nothing and is not answered. So MQTT's rule that the server closes such a connection is broken.", "quantifier": "every state, every packet", "why_tests_cant": "every state of the broker; absence of an action", "anchors": ["src/broker/client_packet_handler.rs::on_packet", "src/mqtt/listener.rs::handle_connection"]}
{"id": "C67", "title": "Takeover leaves the old connection", "statement": "Handling a CONNECT sends nothing to any other connection. So MQTT's rule that the older connection of the same client id is disconnected is broken.", "quantifier": "every state, every CONNECT", "why_tests_cant": "every state of the broker", "anchors": ["src/broker/client_packet_handler.rs::on_connect"]}
{"id": "C68", "title": "No retained messages", "statement": "A PUBLISH is sent only while a PUBLISH is handled, and is the same packet. So MQTT's rule that a new subscription receives the retained message of each matching topic is broken.", "quantifier": "every state, every event", "why_tests_cant": "every state of the broker and all events", "anchors": ["src/broker/client_packet_handler.rs::on_publish", "src/broker/client_packet_handler.rs::on_subscribe"]}
{"id": "C69", "title": "No wills", "statement": "The loss of a connection makes the broker send nothing, no CONNECT that reaches the handler carries a will, and no loss or ending of a connection is ever reported to the handler. So MQTT's rule that the will is published when a connection is lost is broken.", "quantifier": "every execution", "why_tests_cant": "all interleavings and all byte sequences", "anchors": ["src/broker/client_packet_handler.rs::on_connection_lost", "src/mqtt/transport/packet_decoder.rs::decode_connect", "src/mqtt/listener.rs::handle_connection"]}
{"id": "C70", "title": "Persistent sessions keep nothing special", "statement": "After DISCONNECT and a new CONNECT, whatever the clean session flags, a client has one live subscription request less for each filter. So MQTT's rule that the subscriptions of a session without the clean session flag survive is broken.", "quantifier": "every history", "why_tests_cant": "all histories", "anchors": ["src/broker/client_packet_handler.rs::on_connect", "src/broker/client_packet_handler.rs::on_disconnect", "src/broker/messaging/subscriptions_repository.rs::disconnected"]}
{"id": "C71", "title": "Clean sessions are not clean", "statement": "CONNECT changes no subscription, so a new connection starts with the subscriptions its client id still has, and receives nothing if there are none. So MQTT's rule that a clean session starts without subscriptions is broken.", "quantifier": "every history and state", "why_tests_cant": "all histories", "anchors": ["src/broker/client_packet_handler.rs::on_connect", "src/broker/messaging/messaging_service.rs::session_insert"]}
{"id": "C72", "title": "Publishing to names with wildcards", "statement": "A PUBLISH whose name contains wildcards is delivered like any other: for every name, the copies for a client are the sum over the filters of live requests times the number of ways in which the filter selects the name, level by level, where '+' and '#' in the name can be taken literally or by a wildcard. So MQTT's rule that such a PUBLISH is refused is broken.", "quantifier": "every name, every history", "why_tests_cant": "all names and histories", "anchors": ["src/broker/messaging/subscriptions_repository.rs::subscribed_clients", "src/broker/client_packet_handler.rs::on_publish"]}
{"id": "C73", "title": "Invalid filters are accepted", "statement": "A filter with '#' before its last level is accepted and kept as a live request, and adds no copy of any message under a name without wildcards. So MQTT's rule that invalid filters are refused is broken.", "quantifier": "every filter with an inner '#', every history, every name without wildcards", "why_tests_cant": "all filters and histories", "anchors": ["src/broker/client_packet_handler.rs::on_subscribe", "src/broker/messaging/subscriptions_repository.rs::subscribe"]}
{"id": "C74", "title": "DUP and RETAIN flags are relayed", "statement": "In every execution a message is sent with DUP or RETAIN set only if some client published with the flag set; there they are relayed unchanged. So MQTT's rule that both are reset for forwarded messages is broken.", "quantifier": "every execution", "why_tests_cant": "all interleavings", "anchors": ["src/broker/client_packet_handler.rs::on_publish"]}
{"id": "C75", "title": "The subscription tree only grows", "statement": "No request ever makes the subscription tree smaller; one request adds at most one node per level of the filters it mentions; and for every size there is a history without any live subscription whose tree is larger.", "quantifier": "every history, every request", "why_tests_cant": "unbounded histories", "anchors": ["src/broker/messaging/subscriptions_repository.rs::subscribe", "src/broker/messaging/subscriptions_repository.rs::unsubscribe"]}
{"id": "C76", "title": "Packet ids are the publishers'", "statement": "In every execution every packet id of a message sent to a client was chosen by a publisher. So MQTT's rule that ids of unacknowledged messages to one client differ is broken even if no client uses an id twice.", "quantifier": "every execution", "why_tests_cant": "all interleavings", "anchors": ["src/broker/client_packet_handler.rs::on_publish"]}
{"id": "C77", "title": "Only two CONNACK codes", "statement": "In every execution every CONNACK has session present 0 and the code accepted or not authorized. So MQTT's rule that another protocol level is answered by code 1 is broken.", "quantifier": "every execution, every CONNECT", "why_tests_cant": "all byte sequences and interleavings", "anchors": ["src/broker/client_packet_handler.rs::on_connect", "src/mqtt/transport/packet_decoder.rs::decode_connect"]}
{"id": "C78", "title": "Credentials decide alone", "statement": "At rest, every connection whose first packet is a CONNECT with acceptable credentials has been sent the accepting CONNACK, whatever else the CONNECT says. So MQTT's rule that an empty client id without clean session is refused is broken.", "quantifier": "every reachable state at rest with a running handler", "why_tests_cant": "all interleavings and inputs", "anchors": ["src/broker/client_packet_handler.rs::on_connect", "src/mqtt/listener.rs::handle_connection"]}
{"id": "C79", "title": "Packets after DISCONNECT are handled", "statement": "At rest, every packet a client sent after its CONNECT has been handled, also those after DISCONNECT. So MQTT's rule that nothing is processed after DISCONNECT is broken.", "quantifier": "every reachable state at rest with a running handler", "why_tests_cant": "all interleavings and inputs", "anchors": ["src/mqtt/listener.rs::handle_connection", "src/broker/client_packet_handler.rs::on_disconnect"]}
{"id": "C80", "title": "When ended connections are closed", "statement": "At rest, a connection whose read side has ended is closed exactly if it was told to close or no client id belongs to it; in particular a client that goes away without DISCONNECT keeps its connection open in the broker.", "quantifier": "every reachable state at rest with a running handler", "why_tests_cant": "all interleavings; absence of an action for ever", "anchors": ["src/mqtt/listener.rs::handle_connection", "src/broker/messaging/messaging_service.rs::session_insert"]}
{"id": "C81", "title": "One session per connection", "statement": "In every execution client ids and connections of sessions are distinct, each session's connection began with a CONNECT with acceptable credentials, and there are no more sessions than connections.", "quantifier": "every execution", "why_tests_cant": "all interleavings", "anchors": ["src/broker/client_packet_handler.rs::on_connect", "src/broker/session/session_repository.rs::insert"]}
{"id": "C82", "title": "The order of events decides everything", "statement": "At rest, the packets sent to a connection and the service state up to time stamps are determined by the order of handled events: not by the times, the interleaving of the tasks, or the build profile.", "quantifier": "every two reachable states at rest with running handlers", "why_tests_cant": "pairs of executions", "anchors": ["src/broker/client_packet_handler.rs::run", "src/mqtt/listener.rs::handle_connection", "src/broker/messaging/messaging_service.rs::run"]}
{"id": "C83", "title": "One oversized packet per thread stops the broker", "statement": "From every reachable state of a broker running on any number of worker threads, a client that opens at most as many connections as there are threads and sends on each, without CONNECT, one PUBLISH whose topic and payload are together longer than 4096 bytes, brings the broker to a state after which nothing is ever read, handled, sent or accepted again for anybody, and ctrl-c does not end the program.", "quantifier": "every reachable state, every number of threads, every oversized PUBLISH", "why_tests_cant": "for ever, from all states, for all numbers of threads", "anchors": ["src/main.rs::main", "src/mqtt/transport/mqtt_bytes_stream.rs::get_bytes", "src/mqtt/listener.rs::connection_read_loop", "src/application.rs::run"]}
{"id": "C84", "title": "Only oversized data occupies threads", "statement": "Every execution on worker threads is an execution of the broker model and conversely, so all other properties hold on worker threads too; the occupied threads are at most as many as there are connections whose bytes overrun their read buffer, and while these are fewer than the threads every step the broker could take is still possible.", "quantifier": "every execution, every number of threads", "why_tests_cant": "all executions", "anchors": ["src/main.rs::main", "src/mqtt/transport/mqtt_bytes_stream.rs::get_bytes"]}
{"id": "C85", "title": "With a free thread, work owed gets done", "statement": "From every reachable state in which no socket has stopped taking bytes and fewer connections than threads sent bytes that overrun their read buffer, every schedule of the worker threads leads in finitely many steps to rest, in which either the handler has ended or everything is up to date as in C61.", "quantifier": "every reachable state, every schedule, every number of threads", "why_tests_cant": "all schedules", "anchors": ["src/main.rs::main", "src/application.rs::run", "src/broker/client_packet_handler.rs::run", "src/mqtt/listener.rs"]}
{"id": "C86", "title": "The broker is the reference broker", "statement": "A reference broker keeps two lists, the sessions and the live subscription copies, and says for each event what each connection is sent. For every history of events, handling it sends every connection exactly what the reference broker sends it, in order, and stops exactly where it stops. In every execution of the tasks, what each connection was sent is a prefix of it; at rest it is all of it up to the first close request, and arrives at peers that read. So the concurrent broker does what the reference broker does with the clients' packets, one at a time, in some order that keeps each client's own order.", "quantifier": "every history, every execution, every connection", "why_tests_cant": "equality with a specification over all histories and interleavings", "anchors": ["src/broker/client_packet_handler.rs::run", "src/broker/client_packet_handler.rs::on_packet", "src/broker/messaging/messaging_service.rs::run", "src/broker/messaging/subscriptions_repository.rs::subscribed_clients", "src/mqtt/listener.rs::handle_connection"]}
{"id": "C87", "title": "What every run comes to", "statement": "From every reachable state, whatever the peers send and whether or not they read, every schedule without new connections leads in finitely many steps to one of three states of rest: the handler has ended; the handler waits for ever for room in the queue of a peer that stopped reading; or every packet that arrived was handled in order and every connection was sent what the reference broker sends, except at most 32 packets for a peer that stopped reading.", "quantifier": "every reachable state, every schedule, every behaviour of the sockets", "why_tests_cant": "all schedules and all socket behaviours", "anchors": ["src/mqtt/listener.rs::connection_read_loop", "src/mqtt/listener.rs::connection_write_loop", "src/broker/client_packet_handler.rs::run", "src/application.rs::run"]}
{"id": "C88", "title": "A client that stops reading stops the broker", "statement": "From every reachable state, if some connection's client is let in, sends sufficiently many SUBSCRIBE or UNSUBSCRIBE packets (more than 32 plus the number of times its socket takes bytes or fails before it blocks; one less is not always enough) and no PINGREQ, and its socket blocks some time, then on every schedule the broker comes to a state after which nothing is handled or sent for anybody.", "quantifier": "every reachable state, every schedule, every such client", "why_tests_cant": "all states and schedules; for ever", "anchors": ["src/mqtt/listener.rs::handle_connection", "src/mqtt/listener.rs::connection_write_loop", "src/broker/client_packet_handler.rs::on_subscribe", "src/broker/client_packet_handler.rs::on_unsubscribe"]}
{"id": "C89", "title": "A user name without password stops the broker", "statement": "From every reachable state, if some connection's first packet is a CONNECT with a user name and no password, then on every schedule the broker comes to a state after which nothing is handled or sent for anybody.", "quantifier": "every reachable state, every schedule, every such CONNECT, every identity provider", "why_tests_cant": "all states and schedules; for ever", "anchors": ["src/broker/client_packet_handler.rs::on_connect", "src/mqtt/listener.rs::connection_read_loop"]}
{"id": "C90", "title": "Every request is answered once and in order", "statement": "In every execution the packets other than PUBLISH sent on a connection are a prefix of the answers to its client's own packets, in order, up to the first close request: CONNACK for the CONNECT, SUBACK with the same id and one code for each filter, UNSUBACK with the same id, PINGRESP, and nothing for any other packet. At rest they are all of these answers. A refused CONNECT and a PINGREQ without session are answered by a close request.", "quantifier": "every execution, every connection", "why_tests_cant": "all executions and packet sequences", "anchors": ["src/broker/client_packet_handler.rs::on_packet", "src/broker/client_packet_handler.rs::on_connect", "src/mqtt/listener.rs::connection_write_loop"]}
{"id": "C91", "title": "Who gets a message, and because of whom", "statement": "A connection is sent a PUBLISH only if its client was let in, some connection going by the same client id (let in or not, the same connection or another) sent a SUBSCRIBE with a filter that selects the topic, and some connection (let in or not) sent that PUBLISH after a CONNECT; the receiver's CONNECT and that SUBSCRIBE were handled before the PUBLISH. It need not be the receiver who subscribed, nor anybody who was let in.", "quantifier": "all executions, all connections, all messages", "why_tests_cant": "Any number of clients may share ids, be refused, reconnect and interleave; tests try a few.", "anchors": ["src/broker/client_packet_handler.rs::on_connect", "src/broker/client_packet_handler.rs::on_subscribe", "src/broker/client_packet_handler.rs::on_publish", "src/broker/messaging/messaging_service.rs::senders_to_publish", "src/mqtt/listener.rs::connection_read_loop"]}
{"id": "C92", "title": "Which orders and outcomes are possible", "statement": "Take any peers whose sockets never block, whatever bytes they send. The orders in which the broker may handle all their packets, stay up and come to rest are exactly the interleavings that keep each peer's own order, in which no CONNECT has a user name without password, and in which no connection is sent 32 or more events after a close request. What the peers are sent in the end is exactly what a reference broker with two lists sends for such an order, up to the first close request. No other outcome is possible and each of these is.", "quantifier": "every list of peers, every byte string they send, every authenticator, every number of listeners above zero, every order", "why_tests_cant": "says that each of exponentially many orders is produced by some schedule and that no schedule produces another one", "anchors": ["src/broker/client_packet_handler.rs::run", "src/mqtt/listener.rs::connection_read_loop", "src/mqtt/listener.rs::connection_write_loop"]}
{"id": "C93", "title": "A refused client takes the broker down with 32 requests", "statement": "From every state and on every schedule: if a client's CONNECT is refused and it sends 32 or more SUBSCRIBE, UNSUBSCRIBE or PINGREQ packets after it, the packet handler panics or blocks for ever and no client is served any more. With 31 such packets a run exists in which the broker survives.", "quantifier": "every reachable state, every schedule, every refused client", "why_tests_cant": "all states and schedules", "anchors": ["src/broker/client_packet_handler.rs::on_connect", "src/broker/client_packet_handler.rs::on_packet", "src/mqtt/listener.rs::connection_read_loop"]}
{"id": "C94", "title": "The messaging service as a task of its own makes no difference", "statement": "Let each call of the messaging service be what the source has: the handler sends an operation with a oneshot through a channel of 32 places, the service task takes operations in order and answers through the oneshot, the handler waits for the answer and holds a returned session until it returns. Then in every execution at most one operation or answer is on its way, the service runs while the handler is in a call, the call always goes on and none of the unwraps on these channels fails. The executions are those of the broker in which a call is one step, in both directions, and every run comes to the same states of rest. While a call is under way nobody else waits for it: every step of a listener, a read task, the main task or a writer with something to send that is possible when a call is one step is possible at once.", "quantifier": "every execution of the broker with a separate service task, every execution of the broker without", "why_tests_cant": "every interleaving of the handler, the service and the connection tasks", "anchors": ["src/broker/messaging/messaging_service.rs::run", "src/broker/client_packet_handler.rs::on_disconnect", "src/broker/client_packet_handler.rs::on_publish", "src/application.rs::run"]}
{"id": "C95", "title": "Clients that keep coming hold nobody up", "statement": "Take an infinite run of the broker in which new connections may be accepted for ever, no task that can always go on is passed over for ever, no read task that can go on again and again is passed over for ever, and no peer stops taking bytes for ever. Then for every connection, at some later moment either the handler task has ended (Ctrl-C, or a panic), or every packet the client sends has been handled, in order and no other event of that connection ever follows, and everything the reference broker sends to the connection because of the events handled until then, up to the first request to close it, has been sent. Such runs exist from every serving state and for every infinite sequence of peers.", "quantifier": "every infinite fair run, every sequence of connecting peers, every moment, every connection", "why_tests_cant": "infinite runs with unboundedly many clients; what eventually happens", "anchors": ["src/mqtt/listener.rs::start_accepting", "src/mqtt/listener.rs::connection_read_loop", "src/mqtt/listener.rs::connection_write_loop", "src/broker/client_packet_handler.rs::run", "src/broker/messaging/messaging_service.rs::run"]}
{"id": "C96", "title": "When the broker starts, and what clients see before it has", "statement": "The broker gets as far as starting its tasks exactly if the commit hash it was built with has at least 10 bytes and byte 10 does not lie inside a character, the settings could be read, and the password file is readable, valid UTF-8 and each of its lines has a colon; otherwise it panics. Each address is served as soon as it is bound, while later ones are still being bound. In every execution, once all are bound the broker is in a state of the broker with that many listeners, and every such state occurs; before, its state is the same apart from the number of listeners, or an address could not be bound, and then main has panicked (what the tasks left over still do is C136), whatever its first clients were already told. With no address at all no client is ever served and no event handled.", "quantifier": "every commit hash, settings, file content and address list, every outcome of every bind, every interleaving of starting with serving", "why_tests_cant": "the environment of the process at start and all interleavings of binding with serving", "anchors": ["src/main.rs::main", "src/application.rs::run", "src/mqtt/listener.rs::bind", "src/broker/client_packet_handler.rs::new", "build.rs::main"]}
{"id": "C97", "title": "From the password file to the CONNACK", "statement": "Let the broker be started with a password file. A client whose first packet is a CONNECT without user name, or with a user name and password where the hash on the last line naming that user verifies the password, gets nothing or first a CONNACK that accepts it; one whose password is not verified in this way gets nothing or exactly one CONNACK with NotAuthorized; one with a user name and no password never gets anything. When nothing is left to do, no socket blocks and the handler is alive, something has been sent. If the file was left by the password tool after setting a user's password (on a file of its own making, with unambiguous names), then exactly that password's hash counts for that user and nothing changes for others; after deleting a user no password is good for that name and nothing changes for others.", "quantifier": "every password file, every hash function and parser, every CONNECT, every execution from the start on", "why_tests_cant": "all file contents, all clients, all interleavings, through tool, start-up, handler and wire", "anchors": ["src/broker/authentication.rs::new", "src/broker/authentication.rs::authenticate", "src/broker/client_packet_handler.rs::on_connect", "src/application.rs::run", "ratelmq-passwd/src/main.rs::main"]}
{"id": "C98", "title": "The password file is changed while it is being read", "statement": "Let one run of the password tool and any number of starting brokers use the password file, reading and writing some bytes at a time, interleaved in any way, with any of them killed at any time. Then the file is always the old content or a prefix of the new one, and the new one when the tool has ended; what a broker reads is the first n bytes of the old content followed by bytes n to n+m of the new one, for some n and m, and the old content if the tool has not yet opened the file for writing; and every such mixture is read in some run in which nobody is killed, among them the empty one, with which every user name is refused. A broker that starts when nobody writes gets the content of the file. With two runs of the tool at once both can end normally while the update of one is lost, or while the file holds the first bytes of one new content, filled up with zeros if it is too short, and the rest of the other; such a file may stop every broker from starting.", "quantifier": "every file content, user and request, every interleaving of reads and writes of any size, any number of brokers", "why_tests_cant": "races between processes on one file, at every byte", "anchors": ["ratelmq-passwd/src/main.rs::main", "src/broker/authentication.rs::new"]}
{"id": "C99", "title": "Deep filters and the stack: when a DISCONNECT kills the broker", "statement": "Removing a client walks the subscription tree by recursion, so it needs as many nested calls as the tree is high. The tree is one level higher than the longest filter ever named in a SUBSCRIBE or UNSUBSCRIBE, and never gets lower. If the stack has room for `room` nested calls, the process dies exactly at the first DISCONNECT handled after somebody named a filter of `room` or more levels: no such DISCONNECT is ever finished, and nothing else kills it. Otherwise the broker behaves as with an unlimited stack: the orders of packets it survives are those of C92 without such a DISCONNECT. One client suffices: UNSUBSCRIBE from such a filter, then DISCONNECT, ends the service on every schedule. A filter has at most 65536 levels, and can have that many, so room for 65537 calls is always enough and less is not.", "quantifier": "all stack sizes, all sets of connections, all byte streams, all schedules", "why_tests_cant": "The unit tests use trees of three levels; the depth an attacker can reach and the fact that it never goes down are properties of all histories.", "anchors": ["src/broker/messaging/subscriptions_repository.rs::remove_client", "src/broker/messaging/subscriptions_repository.rs::disconnected", "src/broker/messaging/messaging_service.rs::disconnect", "src/broker/client_packet_handler.rs::on_disconnect"]}
{"id": "C100", "title": "Sockets left behind: strangers can shut everybody else out", "statement": "Let the process have room for `limit` client sockets; accepting fails, and only logs, while that many are open. The number of open sockets never exceeds the limit, and such a broker does nothing the unlimited one cannot do. At rest a socket is open exactly if its peer may still send, or if the connection owns a client id and was not told to close: a client that left without DISCONNECT and whose id nobody used since. From every quiet state, clients that send one CONNECT with an id of their own and nothing more - whether they stay or hang up - never give a socket back: the number open grows by one with each of them. As many of them as there are sockets left can always get in, and then, on every schedule and until Ctrl-C, nobody is accepted any more, although the broker stays alive.", "quantifier": "all limits, all quiet states, all such clients, all schedules afterwards, of any length", "why_tests_cant": "No test opens a socket; that nothing ever frees one is a statement about all continuations.", "anchors": ["src/mqtt/listener.rs::accept", "src/mqtt/listener.rs::handle_connection", "src/mqtt/listener.rs::connection_write_loop", "src/broker/messaging/messaging_service.rs::session_insert"]}
{"id": "C101", "title": "Well-behaved clients get full service", "statement": "If every client that sends a CONNECT gives a client id nobody else uses, has its credentials accepted (or sends none), and sends no PINGREQ after a DISCONNECT, then in every execution the packet handler never stops by itself and no connection is closed by the broker. If no socket blocks for ever, then on every schedule each client gets exactly CONNACK accepted followed by one SUBACK, UNSUBACK or PINGRESP per request, in order. A message published by a client that comes later reaches every client that subscribed to a matching filter and neither unsubscribed from it nor disconnected.", "quantifier": "every execution, any number of clients, all packets, all schedules", "why_tests_cant": "all numbers of clients, all their packets and all interleavings", "anchors": ["src/broker/client_packet_handler.rs::on_packet", "src/broker/client_packet_handler.rs::on_connect", "src/mqtt/listener.rs::connection_read_loop", "src/mqtt/listener.rs::connection_write_loop", "src/broker/messaging/messaging_service.rs::senders_to_publish"]}
{"id": "C102", "title": "PINGREQ after DISCONNECT takes the broker down", "statement": "From every state and on every schedule: if a client with an id of its own sends DISCONNECT, later a PINGREQ, and 32 or more further SUBSCRIBE, UNSUBSCRIBE or PINGREQ packets, the packet handler panics or blocks for ever and no client is served any more. No user name or password is needed. With 31 further packets a run exists in which the broker survives.", "quantifier": "every reachable state, every schedule, every such client, every identity provider", "why_tests_cant": "all states and schedules; for ever", "anchors": ["src/broker/client_packet_handler.rs::on_packet", "src/broker/client_packet_handler.rs::on_disconnect", "src/mqtt/listener.rs::connection_read_loop", "src/mqtt/listener.rs::connection_write_loop"]}
{"id": "C103", "title": "Anybody can end anybody's session", "statement": "A connection that has sent its CONNECT and has no session (refused, replaced, or DISCONNECT was sent under its id) is never sent a message because of anything handled later. From every state in which all is done, if somebody comes with no user name, any client id, and leaves with DISCONNECT, then on every schedule the session of that id ends, no other does, the broker goes on, and the connection that had the session is never sent a message again, whatever anybody does.", "quantifier": "every execution; every quiet state, every schedule, every later execution, every client id", "why_tests_cant": "all states, schedules and continuations", "anchors": ["src/broker/client_packet_handler.rs::on_connect", "src/broker/client_packet_handler.rs::on_disconnect", "src/broker/messaging/messaging_service.rs::senders_to_publish", "src/mqtt/listener.rs::connection_read_loop"]}
{"id": "C104", "title": "Anybody can read every message", "statement": "From every state in which all is done, if somebody comes with no user name and subscribes to #, then on every schedule every message with a wildcard-free name that a client coming later publishes, with whatever credentials, is sent to them and can be read by them, as long as nobody else uses their client id and the broker is not stopped or stalled.", "quantifier": "every quiet state, every schedule, every later execution, every message", "why_tests_cant": "all states, schedules, continuations and messages", "anchors": ["src/broker/client_packet_handler.rs::on_connect", "src/broker/client_packet_handler.rs::on_subscribe", "src/broker/client_packet_handler.rs::on_publish", "src/broker/messaging/subscriptions_repository.rs::subscribe"]}
{"id": "C105", "title": "One short message makes the broker send exponentially many copies, and everybody waits", "statement": "From every state in which all is done, if somebody comes with no user name, subscribes m times to the filter +/+/.../+ of 1+d levels (1+2d bytes) and publishes one message to that very name, then on every schedule the broker sends them CONNACK, SUBACK and then at least m * 2^(1+d) copies of the message, and exactly that many if their client id had no subscription before; the broker goes on. In every execution the handler takes up no further event of anybody before all that is to be sent because of the earlier ones, so all those copies, has been queued.", "quantifier": "every quiet state, every schedule, all m and d; every execution", "why_tests_cant": "all states and schedules, and the number of copies is exponential in the length of the name", "anchors": ["src/broker/messaging/subscriptions_repository.rs::subscribed_clients", "src/broker/client_packet_handler.rs::on_publish", "src/broker/messaging/messaging_service.rs::senders_to_publish", "src/mqtt/transport/packet_decoder.rs::decode_publish"]}
{"id": "C106", "title": "Ordinary small messages make a connection's read task spin at byte 4096", "statement": "If a client sends packets in the form MQTT prescribes, however small, and byte 4096 of what it sends falls into the topic or the payload of a PUBLISH, then the broker reads exactly the packets before that PUBLISH and spins for ever on that one. Before bytes 1.7 this is so however the bytes come in, for every allocator; since 1.7 if the cut is strictly inside the text and every read that ends before byte 4096 ends behind a packet that ends in a text or payload (for instance one read per packet, or everything in one read). So a client that connects and publishes the same message of L bytes again and again, each packet in a read of its own, is served (4096 - length of its CONNECT) / L messages and no more, unless the remainder of that division falls outside the texts of the packet.", "quantifier": "for all sequences of packets of any kind and size, all PUBLISH packets and positions of the cut, all later bytes, all allocator choices, both build modes, both behaviours of the bytes library, all read sizes as said", "why_tests_cant": "The tests of the stream use buffers larger than all they send, and no test sends more than a few packets over one connection. Which of the infinitely many sequences of packet sizes put a text across byte 4096, and which splits into reads give room back, cannot be enumerated.", "anchors": ["src/mqtt/transport/mqtt_bytes_stream.rs::get_bytes", "src/mqtt/transport/mqtt_bytes_stream.rs::wait_for_data", "src/mqtt/listener.rs::connection_read_loop"]}
{"id": "C107", "title": "As many clients sending ordinary messages as there are threads stop the broker, on every schedule", "statement": "Take a broker on w worker threads, in any state it can get into, of whose connections w send bytes that overrun their read buffer (C106), after a CONNECT or at once. On every schedule of the broker's tasks it comes to a state in which all threads spin, or the handler has ended, or the handler waits for ever for a client that does not read; from there nothing is ever handled or sent again, whatever connections are made and whether or not ctrl-c is pressed. Whenever a thread is free and a listener runs, w such clients can connect and bring this about, whether their logins succeed or not.", "quantifier": "for all numbers of worker threads, all reachable states of the broker on them, all schedules, all password predicates, all connections with such bytes, all later runs including new connections", "why_tests_cant": "It takes as many busy connections as the machine has cores and several kilobytes over each; the outcome must be shown for all interleavings of the read tasks, the handler and the writers, including those in which the spinning tasks start at different times.", "anchors": ["src/mqtt/transport/mqtt_bytes_stream.rs::get_bytes", "src/mqtt/listener.rs::connection_read_loop", "src/main.rs::main"]}
{"id": "C108", "title": "A client with an id of its own does not notice what others do, except their messages", "statement": "Take a client whose id no other connection uses (and let no other connection leave its id to the broker). In every execution the packets it is sent are a beginning of what the reference broker sends it when everything the other clients do is left out except the messages they publish, in the order in which they were handled; when the broker comes to rest they are all of that. If no other client publishes to a topic that a filter named by this client selects, it is sent exactly what it would be sent if it were the only client, and with a socket that takes every write it reads exactly those packets; with sockets that take what is written this is what every schedule leads to, from every state, unless the handler ends (which it does not if all clients behave as in C101 and there is no ctrl-c). So two brokers with different other clients, schedules, builds and password files (which agree about this client's credentials) show it the same.", "quantifier": "for all reachable states and schedules, all other clients in any number and whatever they send, both builds, all password predicates, all packets of the client", "why_tests_cant": "It compares all pairs of executions that differ in what any number of other clients do and in every interleaving; a test compares one pair.", "anchors": ["src/broker/messaging/subscriptions_repository.rs::subscribed_clients", "src/broker/messaging/subscriptions_repository.rs::remove_client", "src/broker/messaging/messaging_service.rs::senders_to_publish", "src/broker/client_packet_handler.rs::on_packet", "src/mqtt/listener.rs::connection_read_loop"]}
{"id": "C109", "title": "The listeners come from the file alone, and a variable for them stops the start", "statement": "README.md promises that environment variables take precedence over the configuration file. For the addresses to listen on they never do: in every start that gets as far as having settings, the listeners are the array listeners_tcp of the file, whatever variables are set and in whatever order they are gone through. And if a variable RATELMQ_MQTT__LISTENERS_TCP (in any case, with any value) or RATELMQ_MQTT is set, there are never settings, whatever the file says: the program panics before it starts any task.", "quantifier": "for all contents of the file, all environments whose names are letters, digits and underscores, all orders of the HashMap of variables, all values", "why_tests_cant": "The repository has no test of variables (there is a todo), and one with a particular variable would not show that no value and no order of the HashMap, whose seed is random, gives listeners from the environment.", "anchors": ["src/settings/mod.rs::new", "src/application.rs::run"]}
{"id": "C110", "title": "Which variables decide about the password file", "statement": "If a variable RATELMQ_AUTHENTICATION__PASSWORD_FILE (in any case) is the only one whose name begins with RATELMQ_AUTHENTICATION, none begins with RATELMQ_MQTT, and all variables are Unicode, then the settings are the file's listeners and the variable's value, whatever the file says about the password file or if it says nothing. Without any variable of either kind there are settings exactly if the file has both, and they are the file's. If any variable of the environment, whatever its name, is not Unicode, there are no settings and the program panics. With both RATELMQ_AUTHENTICATION and RATELMQ_AUTHENTICATION__PASSWORD_FILE set, and otherwise under the same conditions, both are possible, depending on the random order of a HashMap: the settings with the variable's value, and none. If several variables name the password file in different spellings and nothing else meddles, the last one in the environment counts.", "quantifier": "for all contents of the file, all environments whose names are letters, digits and underscores, all orders of the HashMap of variables, all values", "why_tests_cant": "Environments and files are unbounded, and the order in which the HashMap is gone through differs from run to run; a test sees one of them.", "anchors": ["src/settings/mod.rs::new", "src/application.rs::run"]}
{"id": "C111", "title": "Clients that decide as they go see the same broker", "statement": "It makes no difference to the broker whether a client decided beforehand what to send, when to close and how its socket takes writes, or decides as it goes, for instance in answer to what it is sent. Every state that clients deciding as they go can bring about is one that clients which decided beforehand can bring about, except for records that no task looks at, and the tasks can do the same from there. So whatever holds of every run of the one kind holds of every run of the other: each connection is sent a beginning of what the reference broker sends, and once the clients do nothing new the broker comes to rest with every packet handled and answered, unless its handler ended, a client stopped reading, or a read task spins on its used-up buffer.", "quantifier": "for all password checks, all listeners, all clients and everything they do at any time (sending any bytes in any pieces, closing, resetting, reacting to writes in any way), all interleavings", "why_tests_cant": "a test has one script per client; the claim is about every way in which clients may react to what they got, at every moment of every schedule", "anchors": ["src/mqtt/listener.rs::connection_read_loop", "src/mqtt/listener.rs::connection_write_loop", "src/mqtt/transport/mqtt_bytes_stream.rs::MqttBytesReadStream"]}
{"id": "C112", "title": "Clients that keep coming and keep sending hold nobody up", "statement": "Take an infinite run of the broker in which clients may for ever connect, send, close and choose how their sockets take writes as they like, no task that can always go on is passed over for ever, no read task that waits for a place in the handler's channel is passed over for ever if there is one again and again (which C119 derives from the order in which places are given out), and no peer stops taking bytes for ever. Then whatever whole packets a client has sent by some moment, and whatever it and all the others send after: at some later moment the handler task has ended (Ctrl-C, or a panic), or those packets take more than 4096 bytes together and the client's read task spins on its used-up buffer, or all those packets have been handled, in the order in which they were sent and before anything else the client sent, and everything the reference broker sends to the connection because of the events handled until then, up to the first request to close it, has been sent. Such runs exist from every serving state and for every infinite sequence of things the clients try to do.", "quantifier": "every infinite fair run, everything the clients do in it at any time, every moment, every connection, every sequence of whole packets sent on it by then", "why_tests_cant": "infinite runs in which nobody ever stops sending; what eventually happens", "anchors": ["src/mqtt/listener.rs::start_accepting", "src/mqtt/listener.rs::connection_read_loop", "src/mqtt/listener.rs::connection_write_loop", "src/broker/client_packet_handler.rs::run", "src/broker/messaging/messaging_service.rs::run"]}
{"id": "C113", "title": "The log at level info says exactly this", "statement": "In every run of the broker, what the handler and the messaging service log at level info or above (the level of the Docker image) is, event by event: nothing for a login that succeeds or a CONNECT without a user name; for a refused login one info record with the user name and the reason; for a PUBLISH one warning per copy that is for a client without a session, and nothing else; for a PINGREQ one error if the client id has no session; nothing for SUBSCRIBE, UNSUBSCRIBE and DISCONNECT; one error for every other packet; one info record for a connection reported lost. Who has a session and how many copies there are is said by the reference broker. All other tasks log one of five texts at these levels, none with anything a client sent. A logger set to a level keeps, in order, the records of that level and of those more urgent.", "quantifier": "every run (every schedule, every client behaviour), every identity provider, every text the libraries make of addresses and errors", "why_tests_cant": "tests do not look at the log; which records there are depends on the whole history of sessions and subscriptions", "anchors": ["src/broker/client_packet_handler.rs::run", "src/broker/client_packet_handler.rs::on_connect", "src/broker/client_packet_handler.rs::on_packet", "src/broker/messaging/messaging_service.rs::senders_to_publish", "src/mqtt/listener.rs::connection_read_loop"]}
{"id": "C114", "title": "Up to level debug the log gives no password and no payload away", "statement": "Take two runs of the broker in which the events handled agree in everything public: the same client ids, user names, topics and filters in the same order, and logins judged the same way, while passwords, payloads, flags, packet ids, wills, keep alive times, addresses, connections, schedules and the contents of packets that are not supported may differ. Then the handler and the service log the same records up to level debug, as far as each run has come. All other tasks log one of eight fixed texts up to level debug. With the password file the reason given for a refusal is the same for every refused password of a user.", "quantifier": "every pair of runs whose events agree in public, every identity provider and library text", "why_tests_cant": "non-interference is a statement about pairs of runs", "anchors": ["src/broker/client_packet_handler.rs::run", "src/broker/client_packet_handler.rs::on_connect", "src/broker/client_packet_handler.rs::on_packet", "src/broker/messaging/messaging_service.rs::senders_to_publish", "src/mqtt/listener.rs::connection_read_loop", "src/broker/authentication.rs::authenticate"]}
{"id": "C115", "title": "At level trace every password and every payload is in the log", "statement": "In every run, for every CONNECT handled that has a password, whether it is right, wrong or not looked at, the log contains a trace record with the text password: Some(...) around the password, and for every PUBLISH handled a trace record with the topic, the payload, the quality of service and the retain flag. The payload can be read back from its text exactly, and so can an ASCII password; a password of printable characters without quotes and backslashes stands there as it is. What the log shows of a payload, and of an ASCII string, is printable ASCII whatever the bytes are, and a 16-bit number is shown by its decimal digits without leading zeros.", "quantifier": "every run, every CONNECT and PUBLISH handled, every password and payload", "why_tests_cant": "needs the text made of every value", "anchors": ["src/broker/client_packet_handler.rs::run", "src/mqtt/packets/connect.rs::ConnectPacket", "src/mqtt/message.rs::Message"]}
{"id": "C116", "title": "A visitor can write any text into the log, line breaks included", "statement": "Take any state of the broker in which a listener accepts, the handler is idle and no event waits. Whoever connects and sends a CONNECT with user name t and a password that are refused puts the text t, as it is, into the log at level info, for every UTF-8 text t (with the password at most 4000 bytes), whatever it contains. Whoever sends a refused CONNECT with client id t and then PINGREQ, for every text t that is not the id of a client with a session, puts t as it is into the log at level error.", "quantifier": "every such state, every text, every password that is refused, every way the bytes arrive", "why_tests_cant": "every text and every state", "anchors": ["src/broker/client_packet_handler.rs::on_connect", "src/broker/client_packet_handler.rs::on_ping_req"]}
{"id": "C117", "title": "What clients see respects time: the broker is linearizable", "statement": "By C111 the broker does what one broker would do that handles the clients' packets one at a time in some order. That order respects real time: in every run with clients that decide as they go, if at some moment a client has been sent the answer to one of its packets (CONNACK, SUBACK, UNSUBACK, PINGRESP) and the bytes of another packet, of the same or another client, connected or not yet connected, are not yet all there, then the second packet is never handled before the first. So a client that was let in and has been sent its SUBACK is owed every message that its filter selects and whose PUBLISH is completed only after that, as long as nothing moved its session or took the subscription away; and once the handler is at rest and the connection's queue is written, the message has been written.", "quantifier": "every run, every pair of packets, every schedule, every way the bytes come in pieces", "why_tests_cant": "every interleaving of clients, tasks and pieces of packets", "anchors": ["src/broker/client_packet_handler.rs::run", "src/mqtt/listener.rs::connection_read_loop", "src/mqtt/listener.rs::connection_write_loop", "src/broker/messaging/messaging_service.rs::subscribe"]}
{"id": "C118", "title": "All clients get the messages in one order, and it is a causal one", "statement": "In every run there is one sequence of messages, those published in the order in which the handler took them, and the PUBLISH packets sent to any connection are this sequence with each message left out or sent a number of times, as far as sending has come. So messages that can be told apart reach any two clients in the same order. The order is causal: if at some moment a message has been sent to some client and a second message is not yet completely there (for instance because its publisher waited for the first), then nobody ever gets the second before the first.", "quantifier": "every run with clients that decide as they go, every two messages, every two connections", "why_tests_cant": "every interleaving; a violation needs a rare race", "anchors": ["src/broker/client_packet_handler.rs::on_publish", "src/mqtt/listener.rs::connection_write_loop", "src/broker/client_packet_handler.rs::run"]}
{"id": "C119", "title": "Places in the handler's channel are given out in order, so no read task is starved of one", "statement": "Take the broker together with the queue of the read tasks that wait for a place in the handler's channel: a place that becomes free belongs to the task that has waited longest, whether or not it has been woken yet. Then the states the broker can reach are the same as without the queue; there are never more than 32 events in the channel and places given out, and nobody waits while a place is free; a task that waits has its place as soon as the handler has taken one event more than there were tasks before it in the queue, and nobody behind it has one before; and in every infinite run in which no task that can always go on is passed over for ever, a read task for which there is a place again and again puts its event there, so that everything C112 says about clients being served holds with this weaker assumption. Such runs exist from every serving state and for every infinite sequence of things the clients try to do.", "quantifier": "every reachable state with every queue, every continuation of it, every infinite weakly fair run, everything the clients do in it", "why_tests_cant": "contention for the last place among any number of connections; what eventually happens in infinite runs", "anchors": ["src/mqtt/listener.rs::connection_read_loop", "src/mqtt/listener.rs::accept", "src/broker/client_packet_handler.rs::run"]}
{"id": "C120", "title": "How much of an unfinished packet the broker holds", "statement": "Before a packet is finished or refused the broker reads at most 2162691 bytes of it, a bound that is reached, and never reserves a buffer of more than 2097149 bytes for it, which six bytes from a stranger suffice to obtain. One exception: in a build without overflow checks, a SUBSCRIBE or UNSUBSCRIBE whose length field ends inside one of its filters, or before its packet identifier, makes the broker take everything that follows for filters and collect them until 2^64 bytes have come: it holds all of them and goes on waiting, before CONNECT and whatever the sizes of reads, and no packet ever comes of it; with overflow checks the read task panics.", "quantifier": "every byte sequence, both kinds of build, every stream and every read schedule, any number of filters", "why_tests_cant": "unbounded inputs; only release builds behave so; the amount needed to see it does not fit a test", "anchors": ["src/mqtt/transport/packet_decoder.rs::decode_subscribe", "src/mqtt/transport/packet_decoder.rs::decode_unsubscribe", "src/mqtt/transport/packet_decoder.rs::decode_publish", "src/mqtt/transport/mqtt_bytes_stream.rs::get_bytes"]}
{"id": "C121", "title": "What a request costs in nodes of the subscription tree", "statement": "Naming a filter, in SUBSCRIBE or UNSUBSCRIBE, makes the broker look at one node of the subscription tree for each of its levels and at the root. A DISCONNECT or lost connection, whoever it is from and whatever is subscribed, makes it look at every node there is: one for each different beginning (in levels) of any filter that any client ever named since the start, and the root. A message makes it look at fewer than 2^(levels+1) nodes, and at no more than there are if no level of its name is +; with + levels the cost can be 2^(levels+1)-1 in a tree of levels+1 nodes.", "quantifier": "every history of events, every filter, every name, every tree", "why_tests_cant": "cost as a function of unbounded histories; one node more per request is invisible in tests", "anchors": ["src/broker/messaging/subscriptions_repository.rs::subscribe", "src/broker/messaging/subscriptions_repository.rs::unsubscribe", "src/broker/messaging/subscriptions_repository.rs::remove_client", "src/broker/messaging/subscriptions_repository.rs::subscribed_clients"]}
{"id": "C122", "title": "When the process ends after ctrl-c", "statement": "run() returns or panics only after ctrl-c, and last of all: the listeners, the messaging service and the handler have ended before it, so only tasks of connections are left to be dropped. After run() has returned or panicked the process ends only when every task left has reached an await and been dropped. So while one read task spins (a connection that overruns its read buffer), the process never ends, whatever else happens: one oversized PUBLISH from a client that never logged in is enough, whatever the number of threads and whatever state the broker is in, even though run() returns and everything else is dropped. Conversely, once main has left its wait for the signal, with peers that read and fewer overrunning connections than threads every run of the threads is finite and ends with run() over, and with the process gone exactly if no read task spins; with no overrunning connection the process always ends. Where the threads come to rest, the process is gone, or a read task spins, or the handler waits for a peer that does not read.", "quantifier": "every state that can be reached, every number of threads and listeners, every schedule of tasks, spinning and dropping", "why_tests_cant": "that something never ends, and that every schedule ends, are statements about all runs", "anchors": ["src/main.rs::main", "src/application.rs::run", "src/mqtt/transport/mqtt_bytes_stream.rs::get_bytes", "src/mqtt/listener.rs::connection_read_loop"]}
{"id": "C123", "title": "Dropping the subscription tree", "statement": "When the messaging service ends it drops the subscription tree, which takes one nested call per level. If droom nested calls fit on the stack (droom >= 1), then: the service has ended, or main has returned in good order, only if nobody ever named a filter of droom or more levels in a SUBSCRIBE or UNSUBSCRIBE that was handled. The process is aborted only for the reasons of C99 or because such a filter was named and the handler is gone. If such a filter was named, then after a panic of the handler, or after ctrl-c with peers that read, every schedule ends with the process aborted, so a panic of the handler, which otherwise only leaves the broker deaf, then takes the process down. Filters fit in a 16-bit length, so with room for more than 65536 nested calls the process is never aborted. Otherwise the broker behaves as in C99.", "quantifier": "every state that can be reached, every number of listeners, every schedule, every stack size", "why_tests_cant": "a statement about every schedule and every stack size; a test sees one stack and a few filters", "anchors": ["src/broker/messaging/messaging_service.rs::run", "src/broker/messaging/subscriptions_repository.rs::SubscriptionNode", "src/application.rs::run"]}
{"id": "C124", "title": "Which configuration file is read, and the Docker image", "statement": "The configuration is read from the file named with -c, in the current directory unless the name starts with a slash, or from /etc/ratelmq/ratelmq.conf, if there is such a file, even if it is unreadable or not TOML; otherwise from the file that has toml in place of the extension (what follows the last dot of the last name in the path, a leading dot not counting; with no such dot .toml is added), if there is one; otherwise there are no settings. So if there is no file with either name, two names that differ only in the extension stand for the same settings. The Docker image has /etc/ratelmq/ratelmq.toml, which names /etc/ratelmq/passwd, and no other of these files. Started as README.md says, without variables for the settings, the program starts its first task exactly if /etc/ratelmq/passwd is a text file in which every line has a colon (and the slice of the commit hash exists), and so, as the image is built, it always panics before. With the variable for the password file it starts exactly if that file is such a file.", "quantifier": "every file system, every current directory, every path (absolute after joining), every environment, every TOML parser", "why_tests_cant": "a statement about every path and file system; the repository's tests start no program", "anchors": ["src/main.rs::main", "src/settings/mod.rs::Settings::new", "src/application.rs::run", "src/broker/authentication.rs::FileIdentityManager::new"]}
{"id": "C125", "title": "What about a packet matters, and what does not", "statement": "Two events the broker's handler can get (a CONNECT accepted by a reader, any other packet, a lost connection) are indistinguishable, that is, exchanging one for the other changes nothing that any connection is ever sent, whatever is handled before and after, if and only if they agree in the following. Two CONNECTs: both are let in, with the same client id and on the same connection; or both are refused on the same connection; or both stop the broker (a user name without a password). Two PUBLISHes: the same packet, whoever sent it. Two SUBSCRIBEs or two UNSUBSCRIBEs: the same packet id and connection, the same filters up to order, and the same client unless there are no filters. Two PINGREQs: the same client and connection. Two ends of a session (DISCONNECT or a lost connection): the same client. And all packets the broker ignores are alike. So protocol version, clean session flag, keep alive, will message, the credentials beyond the verdict on them, the peer's address, the requested QoS, the order of the filters and the publisher have no influence on what anybody is sent. Accordingly two executions whose handled events are alike one by one send the same packets on every connection.", "quantifier": "All pairs of events, all histories before and after, all credential checks, all connections; all executions in which the handled events are alike.", "why_tests_cant": "Indistinguishability is about every context: each of infinitely many events before and after; a test that varies a flag and sees no difference in one run says nothing about the others.", "anchors": ["src/broker/client_packet_handler.rs::on_connect", "src/broker/client_packet_handler.rs::on_subscribe", "src/broker/client_packet_handler.rs::on_publish", "src/mqtt/packets/connect.rs::ConnectPacket"]}
{"id": "C126", "title": "How often each line of the other tasks is in the log", "statement": "In every run, at every moment, the log has 'Stopping RatelMQ...' once if ctrl-c has been handled and otherwise not at all; 'RatelMQ stopped' once if the program has got to its end and otherwise not; 'Stopping manager...' and 'Stopped Manager' once each if the handler has stopped (not if it panicked) and otherwise not; 'Stopped Messaging Manager' once if the service has stopped and otherwise not; and the warning 'The first received packet is not CONNECT' exactly as often as there are connections whose first packet read was another one. The line 'Error while sending client event to be processed' is never there while the handler lives, and there are never more lines 'Error while writing packet: ...' than packets that writers have taken and finished with.", "quantifier": "All executions of any length, all numbers of listeners and connections, all error texts, both build profiles.", "why_tests_cant": "A test sees the log of one run at its end; the counts are claimed at every moment of every interleaving.", "anchors": ["src/application.rs::run", "src/broker/client_packet_handler.rs::run", "src/broker/messaging/messaging_service.rs::run", "src/mqtt/listener.rs::connection_read_loop", "src/mqtt/listener.rs::connection_write_loop"]}
{"id": "C127", "title": "Those who wait at the door, and the listener that complains about them", "statement": "Clients that connect to a listener wait in the kernel's queue and are accepted in the order in which they came, each at most once; the broker's connections are exactly those accepted, and whoever still waits when the listener stops is never accepted. Accepting fails exactly while all sockets the process may have are open. A failed accept leaves one error record and changes nothing, in particular the client still waits, so the listener tries again at once: with one client waiting and no socket left, the log can grow by any number of records while nothing else happens. Clients can bring this about for good: from every quiet state, as many strangers as there are sockets left, each sending a CONNECT and nothing else, are let in, and in everything that happens afterwards until ctrl-c nobody who comes later is accepted, while every try of a listener with somebody waiting adds an error to the log. Apart from that the broker is the one of C100, in both directions.", "quantifier": "All numbers of listeners, all limits on sockets, all lengths of the kernel's queue, all clients and what they send, all interleavings.", "why_tests_cant": "A test could exhaust the sockets once; that no later order of events lets anybody in, and that the log has no bound, is about all continuations.", "anchors": ["src/mqtt/listener.rs::start_accepting", "src/mqtt/listener.rs::accept", "src/application.rs::run"]}
{"id": "C128", "title": "How many steps it takes, whatever the schedule", "statement": "In every run the number of turns each task has had is a function of the state reached: two per packet for a read task (reading it, handing it over) plus one for its end, or a single one if the first packet is not a CONNECT; two per packet for a write task (taking it, writing it) plus one for its end; one per connection for the listeners; for the handler two per event plus one per question it asks the messaging service plus one per packet it sends (a CONNECT that is let in takes two questions, a SUBSCRIBE one per filter, PUBLISH, UNSUBSCRIBE, PINGREQ, DISCONNECT and a lost connection one, anything else none), less what it still has to do about the present event; and one per ending task and per join. Hence two runs that reach the same state have taken the same number of steps, task by task, no state is ever reached twice, and the number of steps is linear in connections, packets read and written, events handled, filters and packets sent.", "quantifier": "all credentials, debug and release builds, any number of listeners, all peers and sockets, all schedules and all reachable states", "why_tests_cant": "A test can count the steps of one schedule; that the count depends on the state alone, and that no schedule makes a task poll in vain or repeat work, is about every interleaving.", "anchors": ["src/mqtt/listener.rs::connection_read_loop", "src/mqtt/listener.rs::connection_write_loop", "src/broker/client_packet_handler.rs::run", "src/broker/messaging/messaging_service.rs::run"]}
{"id": "C129", "title": "A stream that is not split behaves as its two halves", "statement": "Every reading call on an unsplit byte stream does exactly what the same call on the reading half does, and every writing call what the same call on the writing half does: same value, same error, same wait, panic or spin, same bytes left over and same buffers. A reading call does not touch the writing side and a writing call does not touch the reading side. So in any sequence of calls the reading calls get what they would get if the writing calls were not made, and the other way round.", "quantifier": "all states of the stream and its buffers, all peers, all calls and all sequences of calls", "why_tests_cant": "The two copies of the code can differ on one buffer state in a test's blind spot, and no test tries all interleavings of calls.", "anchors": ["src/mqtt/transport/mqtt_bytes_stream.rs::MqttBytesStream", "src/mqtt/transport/mqtt_bytes_stream.rs::MqttBytesReadStream", "src/mqtt/transport/mqtt_bytes_stream.rs::MqttBytesWriteStream"]}
{"id": "C130", "title": "Calls that fail or are given up half-way", "statement": "A reading call that succeeds takes exactly its bytes from the front of what is to come. One that fails, or waits and is given up, takes nothing, except that reading a string loses the two bytes of its size once they are read, and the whole string if it is not UTF-8. A writing call that fails or is given up has put a prefix of its bytes: none of them for one or two bytes, never all of them for a string or a list of bytes, never one half of a string's size, and finishing a packet puts nothing. Nothing put before is lost or changed.", "quantifier": "all states of the stream and its buffers, all peers and all calls", "why_tests_cant": "A call can be given up at any of its waiting points, in any state of the two buffers; tests give up calls at a few of them.", "anchors": ["src/mqtt/transport/mqtt_bytes_stream.rs::get_u8", "src/mqtt/transport/mqtt_bytes_stream.rs::get_u16", "src/mqtt/transport/mqtt_bytes_stream.rs::get_string", "src/mqtt/transport/mqtt_bytes_stream.rs::get_bytes", "src/mqtt/transport/mqtt_bytes_stream.rs::put_bytes", "src/mqtt/transport/mqtt_bytes_stream.rs::put_string", "src/mqtt/transport/mqtt_bytes_stream.rs::finish_packet"]}
{"id": "C131", "title": "What the log says about starting and stopping", "statement": "Before the first task is started the log has no record if the commit hash cannot be cut after ten bytes, two (the version with the cut hash, the name of the configuration file) if there are no settings, and otherwise a third with the settings as read. From then on the main task's records are, in every execution, exactly: for each address bound so far, in the order of the settings, that it is being bound and that it is listened on; for an address that cannot be bound only the first of the two, as the last record; then, exactly if all are bound, that the broker is ready, from Ctrl-C on that it stops, and when main returns that it has stopped. The messaging service logs its start once, before its state changes at all and before it can stop, and its end once. Hence the record of being ready is there exactly when all addresses are bound, that of having stopped exactly when main returns, and the last record is about binding an address exactly when that one could not be bound.", "quantifier": "all addresses and settings, all answers of the system to binding, all credentials, debug and release builds, all schedules of main, the service and the other tasks", "why_tests_cant": "Each test starts the broker once, with one list of addresses and one schedule; which records an operator can rely on is a question about every start.", "anchors": ["src/application.rs::run", "src/mqtt/listener.rs::bind", "src/broker/messaging/messaging_service.rs::run", "src/main.rs::main", "src/settings/mod.rs::Settings"]}
{"id": "C132", "title": "Packets made from a type number", "statement": "ControlPacket::new panics exactly for 0 and for numbers above 14; otherwise it makes a packet whose type on the wire is the given number, with every string and list empty, every flag off, every number zero, quality of service 0 and return code Accepted. The type number of any packet leads back to a packet of its kind. Only those for CONNACK, PINGREQ, PINGRESP and DISCONNECT are packets MQTT allows. Sent to the broker, those that clients send are read back as they are, except SUBSCRIBE and UNSUBSCRIBE, which are refused because they list nothing, and those that only a server sends make it panic; those the broker writes are written as MQTT defines.", "quantifier": "all numbers, all packets, debug and release builds", "why_tests_cant": "Nothing in the project calls the function, so no test of the broker reaches it; that the numbering agrees with the decoder's and the encoder's is about every packet.", "anchors": ["src/mqtt/packets/mod.rs::ControlPacket::new", "src/mqtt/packets/connect.rs::ConnectPacket", "src/mqtt/packets/publish.rs::PublishPacket", "src/mqtt/packets/suback.rs::SubAckReturnCode", "src/mqtt/message.rs::Message"]}
{"id": "C133", "title": "A run of ratelmq-passwd, from the command line to the file", "statement": "A command line is accepted exactly if, in any order, it names one user, asks for one of a new password and deletion, and names at most one file (/etc/ratelmq/passwd if none). No unwrap on an argument ever panics. An accepted run panics without touching a file exactly if the commit hash cannot be cut, the expression for the user name cannot be built, the file cannot be read as text or the password cannot be hashed; otherwise it writes the file as C45 to C47 describe, and panics if that fails, or writes nothing if a user that has no entry is to be deleted. A run that finishes has changed no other file, and where C45 and C46 apply the broker that loads the file knows the new password, or the user no more.", "quantifier": "all command lines, all files and contents, all user names and passwords, all answers of regex, argon2 and the file system", "why_tests_cant": "The combinations of options, files and failures are endless; that an argument is always there when it is unwrapped depends on what the argument parser lets through.", "anchors": ["ratelmq-passwd/src/main.rs::main", "ratelmq-passwd/src/main.rs::build_arguments", "ratelmq-passwd/src/main.rs::build_entry"]}
{"id": "C134", "title": "The log shows the length of every string, before the string has come", "statement": "At level trace, and at no other, get_string logs three records for each string it reads; they do not change what is read. For a packet that has been read they are three for each of its strings, in order, with the number of its bytes in decimal and in hexadecimal (two digits, or more without a leading zero), after those of the protocol name if it is a CONNECT. Whatever bytes come and however a read ends, the records are three for each string whose size has come, and one more exactly if the size of the next is awaited or never came. They do not depend on how the bytes are cut into segments. So the length of a password is in the log as soon as its two size bytes have come, whether or not the password ever follows.", "quantifier": "all byte sequences, all segmentations and buffer states, all packets, debug and release builds", "why_tests_cant": "Every prefix of every packet is a case of its own, as is every way the bytes are cut.", "anchors": ["src/mqtt/transport/mqtt_bytes_stream.rs::get_string", "src/mqtt/transport/packet_decoder.rs::read_packet"]}
{"id": "C135", "title": "From the bytes the clients send to the bytes they get", "statement": "Take any clients, each of which sends some packets the decoder supports, in any of their MQTT wire forms with the length in at most three digits, in at most 4096 bytes in all, cut up in any way, and takes whatever it is sent. When everything has been dealt with and the broker is still up, the byte strings they have got are exactly the encodings of what the reference broker sends for some mix of their packets, which keeps each client's own order, has no CONNECT with a user name and no password and sends no connection 32 or more events after a close request; and for every such mix the broker may do just that. Each client can read all of what it got, with nothing left over. So the possible outcomes depend on the packets and the clients' addresses alone: not on the wire forms chosen, on how the bytes were cut up, on the allocator, on the build, on the number of listeners, or on whether the clients hang up afterwards.", "quantifier": "every list of clients, every list of packets for each, every wire form and segmentation, every authenticator, every number of listeners above zero, every schedule", "why_tests_cant": "It equates the set of all outcomes of all schedules with the outcomes of a reference broker; a test sees one schedule of one set of clients.", "anchors": ["src/mqtt/listener.rs::connection_read_loop", "src/mqtt/listener.rs::connection_write_loop", "src/mqtt/transport/packet_decoder.rs::read_packet", "src/mqtt/transport/packet_encoder.rs::write_packet", "src/broker/client_packet_handler.rs::run"]}
{"id": "C136", "title": "A start that fails at an address may never end", "statement": "The addresses are bound one after the other, and those bound before are already served. If one cannot be bound, main panics, which also tells the listeners and the handler to stop, and the process ends when every task has reached an await and been dropped. So if a client of an address bound before has sent one oversized PUBLISH, without logging in, the process never ends, whatever happens, although main has panicked. Otherwise it does: after the panic, with at least one worker thread, every run of the threads is finite and ends with the process gone exactly if no read task spins, whether or not peers read what they are sent; with no connection that overruns its read buffer the process is always gone in the end. Until an address fails, the states are those of C96. (Stacks are taken to be deep enough here; see C139.)", "quantifier": "every list of addresses, every one that fails, every set of clients before, every number of worker threads, every schedule", "why_tests_cant": "The window is the time between two binds, and never ending is not observable.", "anchors": ["src/application.rs::run", "src/mqtt/listener.rs::bind", "src/mqtt/listener.rs::start_accepting"]}
{"id": "C137", "title": "What git prints when the broker is built", "statement": "A build fails exactly if git cannot be started or there is no repository. In a checkout with a commit, the program has that commit's hash, shows its first ten digits as its version, and the hash does not keep it from starting. In a repository without a commit git prints the word HEAD; the build succeeds, because the exit status is not looked at, and the program panics at every start, whatever its configuration, and even when it is only asked for its version.", "quantifier": "every hash of 40 or 64 digits, every configuration and password file", "why_tests_cant": "The tests run where there is a commit; a build from a fresh repository is never tried.", "anchors": ["build.rs::main", "src/config/build_info.rs::BUILD_INFO", "src/main.rs::main", "src/application.rs::run"]}
{"id": "C138", "title": "What .env adds to the environment", "statement": "The lines of .env are read up to the first that is no assignment; the rest is ignored without a word. A variable that has a Unicode value keeps it; one that is not set, or whose value is not Unicode, gets the value of its first assignment; all others stay as they are. The program panics exactly if a variable that has to be set has an empty name or one with an equals sign or a NUL, or a value with a NUL. New variables come behind the old ones, and of several spellings of one setting the last counts: so a password file named in .env counts even if the environment names another one with other capital letters. No .env can give the listeners.", "quantifier": "every content of .env as a list of assignments and other lines, every environment, every configuration file", "why_tests_cant": "All contents and all environments, including values that are not Unicode.", "anchors": ["src/main.rs::main", "src/settings/mod.rs::new"]}
{"id": "C139", "title": "A start that fails and a deep subscription tree", "statement": "As C136, on stacks where room nested calls of remove_client and droom nested calls of the drop of the tree fit (both >= 1). Every step of C136 can be taken, and the process is aborted in it exactly if it drops a tree of more than droom levels or removes a client from one of more than room levels (the root counts). This happens only for the reason of C99, or because a filter of droom or more levels was named in a SUBSCRIBE or UNSUBSCRIBE handled before; without these, every run of C136 is a run here. If such a filter was named in an event whose handling is over when an address cannot be bound, and fewer connections overrun their read buffer than there are worker threads, then every schedule ends with the process aborted, even if a read task spins, which by C136 would otherwise keep the process for ever. With room for more than 65536 nested calls the process is never aborted.", "quantifier": "every list of addresses, every one that fails, every set of clients before, every number of worker threads, every schedule, every stack size", "why_tests_cant": "A statement about every schedule in a window between two binds, and every stack size.", "anchors": ["src/application.rs::run", "src/mqtt/listener.rs::bind", "src/broker/messaging/subscriptions_repository.rs::SubscriptionNode", "src/broker/messaging/messaging_service.rs::run"]}
{"id": "C140", "title": "What a session records", "statement": "After any history of events, the session kept under a client id is exactly what its last accepted CONNECT said: that client id, the address it came from, persistent if it did not ask for a clean session, the sender of its connection, its keep-alive, and as last activity the time at which that CONNECT was handled. There is none if there was no such CONNECT or if a DISCONNECT or the loss of a connection with that client id came after it. Nothing else that the client or anybody sends changes it, so activity is never recorded: session_get_keep_alive_expired, which the broker does not call, lists, each once, exactly the clients with a session and a keep-alive k > 0 whose CONNECT was handled at least floor(1.5 k) seconds ago, including those that ping in time, and panics exactly if for one of them that deadline lies beyond the last instant chrono can represent.", "quantifier": "every history of events that does not make the handler panic, every client id, every time, every identity provider", "why_tests_cant": "Every history; the tests of the sessions insert one session and look it up.", "anchors": ["src/broker/messaging/messaging_service.rs::session_get", "src/broker/messaging/messaging_service.rs::session_get_keep_alive_expired", "src/broker/session/session_entity.rs::Session", "src/broker/client_packet_handler.rs::on_connect"]}
{"id": "C141", "title": "The methods nobody calls", "statement": "InMemorySessionRepository is a map: after any sequence of insertions, deletions and changes through get_mut, from any map, get, exists, delete and iter agree with the last insertion, change or deletion for each client id, and count is the number of client ids with a session. SessionService does what its repository does, whatever repository that is. Setting the last activity through session_get_mut changes that field of that session and nothing else. MessagingService::publish, when awaited, makes exactly the sends, in the same order, of the loop in which the handler handles a PUBLISH; the running service does not await it, and there it does nothing.", "quantifier": "every sequence of changes, every map at the start, every repository, every state of the service, every message", "why_tests_cant": "Every sequence of changes; the methods are not called by the program, so no test of the program reaches them.", "anchors": ["src/broker/session/session_repository.rs::InMemorySessionRepository", "src/broker/session/session_service.rs::SessionService", "src/broker/messaging/messaging_service.rs::publish", "src/broker/messaging/messaging_service.rs::session_get_mut", "src/broker/session/session_entity.rs::set_last_activity"]}
{"id": "C142", "title": "Everything the handler logs", "statement": "In every run of the broker, all that the handler and the messaging service log, at all levels, is event by event and in this order: a trace record with the whole event; for a packet a trace record with the whole packet; one debug record for a CONNECT (also one that is refused), a PUBLISH, a SUBSCRIBE, an UNSUBSCRIBE and a DISCONNECT, with the client id and with the topic, the list of filters with their quality of service, or the list of topics; and then what C113 says for level info. So up to debug the log of an event is that debug record and what is there at level info. The text of every packet and event is given field by field.", "quantifier": "every run of the broker, every event, every identity provider, whatever texts the libraries make of addresses, senders and strings that are not ASCII", "why_tests_cant": "Every run and every content of a packet; no test looks at the log.", "anchors": ["src/broker/client_packet_handler.rs::run", "src/broker/client_packet_handler.rs::on_connect", "src/broker/client_packet_handler.rs::on_subscribe", "src/mqtt/packets/mod.rs::ControlPacket", "src/mqtt/events.rs::ClientEvent"]}
{"id": "C143", "title": "Every packet in both directions is in the log at level trace", "statement": "In every run, the read task of a connection logs at level trace exactly the packets it has read, each once, whole and in the order read, the first in words of its own and followed by a note if it is a CONNECT without client id; and at the end that the task has ended, exactly if the first packet was a CONNECT, the bytes of the peer end in an error or end of file and the task has got there. Its write task logs exactly the packets taken from its queue, each twice, whole and in order, before writing; and, when it has ended, whether a Disconnect event had been sent to it, and that it has ended. Of the other tasks only a listener that stops logs anything at this level.", "quantifier": "every run of the broker, every connection, whatever its peer sends and however the tasks are scheduled, every identity provider", "why_tests_cant": "Every run and every packet; no test looks at the log.", "anchors": ["src/mqtt/listener.rs::connection_read_loop", "src/mqtt/listener.rs::connection_write_loop", "src/mqtt/packets/mod.rs::ControlPacket", "src/mqtt/events.rs::ServerEvent"]}
{"id": "C144", "title": "The packets can be read back from the log at level trace", "statement": "The text the log has of a packet is its own: if the texts of two packets, whatever follows them, are the same then so are the packets, payload, topics, names, passwords and flags included, for all packets whose texts are ASCII and whose numbers fit in 16 bits. Hence two connections, of the same run or of different ones, whose read tasks made the same records at level trace read the same packets in the same order, and two whose write tasks did were given the same packets. No client can send one packet whose record is that of another, with quotes or line breaks in a topic for instance (the lines a visitor can write into the log are in records of level info, see C116). For other texts it holds if the standard library shows different strings differently and between quotes.", "quantifier": "all packets; every two runs of the broker, every two connections, whatever their peers send and however the tasks are scheduled", "why_tests_cant": "All pairs of packets and of runs.", "anchors": ["src/mqtt/packets/mod.rs::ControlPacket", "src/mqtt/packets/connect.rs::ConnectPacket", "src/mqtt/packets/publish.rs::PublishPacket", "src/mqtt/message.rs::Message", "src/mqtt/listener.rs::connection_read_loop", "src/mqtt/listener.rs::connection_write_loop"]}
{"id": "C145", "title": "What the subscription tree keeps, in bytes", "statement": "Between events the client ids held in the subscription tree are exactly those of the live subscriptions, one whole copy for each. A SUBSCRIBE adds one copy of the client's id for each of its filters, whether or not the same subscription is there already; no other event adds a copy of any id. So the ids take at most the sum over all SUBSCRIBEs of filters times length of the id, and the names of the nodes at most the bytes of all filters ever named in SUBSCRIBE or UNSUBSCRIBE. No smaller amount bounds them for good: after the events of V visits of a client without a user name have been handled, each a CONNECT, one SUBSCRIBE naming the same filter n+1 times and a DISCONNECT, there is no session and the tree holds V*n copies of the client's id. The body of a SUBSCRIBE naming a filter n times is two bytes, and three and the length of the filter for each time.", "quantifier": "every history of events, every run of the broker between events, every client id, filter, number of visits and identity provider", "why_tests_cant": "All histories; the amount of memory held is not observable in a test of results.", "anchors": ["src/broker/messaging/subscriptions_repository.rs::subscribe", "src/broker/messaging/subscriptions_repository.rs::unsubscribe", "src/broker/messaging/subscriptions_repository.rs::remove_client", "src/broker/messaging/subscriptions_repository.rs::SubscriptionNode"]}
{"id": "C146", "title": "The texts of packets, subscriptions and qualities of service for people", "statement": "The Display text of a packet is the standard's name of the packet type in the upper half of its first byte. The text of a quality of service begins with its number on the wire. The text of a subscription tells the subscription: two have the same text only if topic and quality of service are the same, whatever the topic contains. But the topic goes in as it is, so two such texts with any text between them can also be the text of a single subscription.", "quantifier": "every packet, every pair of subscriptions with any topics, every text between two subscriptions", "why_tests_cant": "All topics, among them those with quotes and line breaks in them.", "anchors": ["src/mqtt/packets/mod.rs::QoS", "src/mqtt/packets/mod.rs::ControlPacket", "src/mqtt/subscription.rs::Subscription"]}
