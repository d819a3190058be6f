{"id": "C01", "title": "Tunnel frames survive the wire", "statement": "Every tunnel frame (create, close, data, mapping, token) whose strings are at most 255 bytes, whose payload is below 16 MiB, whose list lengths fit in 16 bits and whose stream id fits the 32+24 bit wire form is decoded by the peer to an equal frame, consuming exactly the bytes that were encoded and leaving what follows untouched.", "quantifier": "all frames within the wire limits, all bytes that may follow in the receive buffer", "why_tests_cant": "The space of frames (arbitrary strings, arbitrary many mappings and headers, arbitrary payload) is infinite; tests sample a few.", "anchors": ["src/prot/frame.rs ProtFrame::encode/parse", "src/prot/create.rs", "src/prot/close.rs", "src/prot/data.rs", "src/prot/mapping.rs", "src/prot/token.rs", "src/helper.rs Helper::decode_frame"]}
{"id": "C02", "title": "Frame stream decoding is independent of TCP segmentation", "statement": "However TCP cuts the concatenated encodings of a sequence of frames into reads, the receiver obtains exactly that sequence of frames, in order, each as soon as and not before its last byte has arrived, and nothing else.", "quantifier": "all sequences of encodable frames, all ways of cutting the byte stream into reads (including empty ones)", "why_tests_cant": "The number of segmentations is exponential in the stream length.", "anchors": ["src/helper.rs Helper::decode_frame", "src/streams/center_server.rs inner_serve", "src/streams/center_client.rs inner_serve"]}
{"id": "C03", "title": "Frame isolation", "statement": "The frame decoded from the receive buffer depends only on the bytes of that frame (its header and the announced number of payload bytes), never on bytes that belong to later frames.", "quantifier": "all byte strings a peer can send", "why_tests_cant": "Needs a statement over all malformed inputs and all continuations.", "anchors": ["src/helper.rs Helper::decode_frame", "src/prot/mod.rs read_short_string", "src/prot/create.rs ProtCreate::parse"]}
{"id": "C04", "title": "A peer cannot crash the frame decoder", "statement": "No byte sequence received from the tunnel peer makes frame decoding panic; it yields a frame, waits for more bytes, or reports an error.", "quantifier": "all byte strings", "why_tests_cant": "Crash freedom is a statement about every input.", "anchors": ["src/helper.rs Helper::decode_frame", "src/prot/frame.rs ProtFrame::parse", "src/prot/create.rs ProtCreate::parse"]}
{"id": "C05", "title": "Oversized fields are refused, not mangled", "statement": "Encoding a frame whose field exceeds what the wire format can carry reports an error and leaves the send buffer as it was; it never emits bytes that decode to something else.", "quantifier": "all frames, including oversized domains, reasons, payloads and lists", "why_tests_cant": "Boundary behaviour over unbounded sizes and its effect on every later frame of the connection.", "anchors": ["src/prot/create.rs ProtCreate::encode", "src/prot/close.rs ProtClose::encode", "src/prot/mod.rs write_short_string", "src/prot/mapping.rs ProtMapping::encode", "src/prot/data.rs ProtData::encode"]}
{"id": "C06", "title": "Stream ids do not collide", "statement": "Ids handed out on one tunnel are pairwise distinct and ids allocated by the client side never equal ids allocated by the server side, for as long as fewer than 2^31 were allocated per side; and the peer sees the same id that was allocated.", "quantifier": "all allocation histories on both ends", "why_tests_cant": "Wrap-around happens only after millions of allocations.", "anchors": ["src/streams/center_client.rs calc_next_id", "src/streams/center_server.rs calc_next_id", "src/helper.rs calc_sock_map", "src/prot/frame.rs ProtFrameHeader"]}
{"id": "C07", "title": "No tunnel service before authentication", "statement": "When a user name or password is configured on the center server, no connection is opened, no stream data is forwarded and no mapping is registered on behalf of a tunnel peer until that peer has presented a token matching every configured credential; the first other frame makes the server send a close notice and decode nothing further.", "quantifier": "all configurations and all histories of received frames, reads and writes", "why_tests_cant": "A universally quantified safety property over histories.", "anchors": ["src/streams/center_server.rs inner_serve", "src/prot/token.rs is_check_succ"]}
{"id": "C08", "title": "Tunnel server dispatches each frame to its own stream", "statement": "On the center server every data or close frame of an authenticated peer is delivered to the handler created for exactly that stream id by the latest create frame, in arrival order, and to no other stream; frames for unknown ids have no effect on any stream.", "quantifier": "all histories of frames over all interleaved streams", "why_tests_cant": "Interleavings of unboundedly many streams.", "anchors": ["src/streams/center_server.rs inner_serve"]}
{"id": "C09", "title": "Tunnel client routes a new stream by mapping", "statement": "A create frame for a domain is served by the last configured mapping whose domain or name equals it; if there is none the peer receives a close for that stream id; no other stream is affected.", "quantifier": "all mapping tables, all domains, all histories", "why_tests_cant": "Quantifies over all tables and histories.", "anchors": ["src/streams/center_client.rs inner_serve"]}
{"id": "C10", "title": "Tunnel client never reorders, duplicates or misroutes", "statement": "What the handler of a stream receives on the tunnel client is a subsequence, in order, of the data and close frames that arrived for its id after its create frame; frames of one stream never reach another.", "quantifier": "all histories of frames and all schedules of handler consumption", "why_tests_cant": "Interleavings of arrivals and consumption.", "anchors": ["src/streams/center_client.rs inner_serve"]}
{"id": "C11", "title": "Tunnel client loses no stream data", "statement": "Every data frame arriving for an open stream on the tunnel client is eventually handed to its handler, whatever the relative speed of network and handler.", "quantifier": "all schedules", "why_tests_cant": "The loss needs a slow consumer and more than ten frames in flight.", "anchors": ["src/streams/center_client.rs inner_serve try_send"]}
{"id": "C12", "title": "Virtual stream reads deliver the sent bytes in order", "statement": "The bytes read from a tunnel stream are, at every moment, a prefix of the concatenation of the payloads received for it, whatever buffer sizes the reader uses; after end of stream nothing more is delivered.", "quantifier": "all sequences of frames, all read buffer sizes, all interleavings", "why_tests_cant": "Interleavings of arrivals and partial reads.", "anchors": ["src/streams/virtual_stream.rs poll_read"]}
{"id": "C13", "title": "Virtual stream reads deliver all bytes sent before the close", "statement": "When the peer closes a tunnel stream, the reader has received every byte of the data frames that preceded the close before it sees end of file.", "quantifier": "all sequences of frames and all read buffer sizes", "why_tests_cant": "Depends on the interleaving of small reads and the close.", "anchors": ["src/streams/virtual_stream.rs poll_read"]}
{"id": "C14", "title": "Virtual stream writes are delivered exactly once", "statement": "Each buffer accepted by a write on a tunnel stream is sent to the peer exactly once and in order, also when the tunnel is congested and the write has to be retried.", "quantifier": "all sequences of writes and all congestion schedules", "why_tests_cant": "Duplication happens only when the channel is full at the wrong moment.", "anchors": ["src/streams/virtual_stream.rs poll_write"]}
{"id": "C15", "title": "Stream bridge preserves order and always closes", "statement": "Bridging a socket with a tunnel stream, the bytes written to the socket are at every moment a prefix of the received payloads, the data frames sent carry in order a prefix of the bytes read from the socket, and when the bridge ends exactly one close frame for the stream is sent, last.", "quantifier": "all schedules of reads, writes, frame arrivals, errors and end of file", "why_tests_cant": "A property of all interleavings.", "anchors": ["src/streams/trans_stream.rs inner_copy_wait, copy_wait"]}
{"id": "C16", "title": "Stream bridge flushes before it ends", "statement": "When the socket side reaches end of file, everything read before has been sent to the peer; when the peer closes, everything received before has been written to the socket.", "quantifier": "all schedules", "why_tests_cant": "Loss depends on the schedule at the moment of the close.", "anchors": ["src/streams/trans_stream.rs inner_copy_wait"]}
{"id": "C17", "title": "Per-address request rate limit", "statement": "For a limit zone with n requests per period and a burst b, a client address is answered without delay while its current count is at most n, delayed while at most n+b and refused above; the count restarts after an idle gap longer than the period and one client's requests never change another client's verdict unless the zone is full.", "quantifier": "all zones, all histories of requests from all addresses with arbitrary non-decreasing times", "why_tests_cant": "Histories over unboundedly many clients and times.", "anchors": ["src/data/limit_req_data.rs recv_req, inner_recv_new_req, recv_new_req"]}
{"id": "C18", "title": "Rate limit recovers", "statement": "A client that keeps its rate at or below the configured rate is eventually served again.", "quantifier": "all request histories", "why_tests_cant": "Liveness over unbounded histories; the counter is only reset by idle gaps.", "anchors": ["src/data/limit_req_data.rs recv_req"]}
{"id": "C19", "title": "A full limit zone does not lock out known clients", "statement": "When the number of tracked addresses reaches the zone limit, clients already tracked keep being judged by their own count.", "quantifier": "all histories that fill the zone", "why_tests_cant": "Needs a full zone.", "anchors": ["src/data/limit_req_data.rs inner_recv_new_req"]}
{"id": "C20", "title": "Passive health check state machine", "statement": "A backend becomes failed only through consecutive failures reaching the configured limit with no success in between and no fail-timeout gap, and becomes usable again only through the configured number of consecutive successes or by the fail timeout elapsing.", "quantifier": "all histories of failures, successes and elapsed times, all thresholds", "why_tests_cant": "Histories and time gaps are unbounded.", "anchors": ["src/check/health.rs add_fall_down, add_rise_up, is_fall_down, check_fall_down"]}
{"id": "C21", "title": "Load balancing picks a live member", "statement": "Choosing a backend from a non-empty upstream group whose total weight fits in 16 bits always returns a member of the group, and one that is not marked failed whenever some unfailed member with non-zero weight exists.", "quantifier": "all groups, weights, health states and random draws", "why_tests_cant": "Quantifies over all weights and draws.", "anchors": ["src/reverse/upstream.rs get_server_addr, calc_sum_weight"]}
{"id": "C22", "title": "Load balancing honours weights", "statement": "The number of random draws that select a member is its weight; in particular a member of weight zero is never selected while others are available.", "quantifier": "all groups and weights", "why_tests_cant": "A counting statement over all draws.", "anchors": ["src/reverse/upstream.rs get_server_addr"]}
{"id": "C23", "title": "IPv4 address sets implement CIDR", "statement": "An address set entry a.b.c.d/n with 1<=n<=32 matches exactly the IPv4 addresses that agree with a.b.c.d on the first n bits; an entry without prefix length matches exactly that address; a set matches iff one entry does.", "quantifier": "all entries and all addresses", "why_tests_cant": "2^32 x 2^32 x 33 combinations.", "anchors": ["src/config/ip_sets.rs IpGate::contains, IpSets::contains"]}
{"id": "C24", "title": "Address sets implement CIDR for /0 and IPv6", "statement": "An entry with prefix length n matches exactly the addresses of the same family that agree on the first n bits, also for n=0 and for IPv6.", "quantifier": "all entries and all addresses of both families", "why_tests_cant": "2^128 addresses.", "anchors": ["src/config/ip_sets.rs IpGate::contains"]}
{"id": "C25", "title": "Sizes survive display and parse", "statement": "Formatting a configured size and parsing it back yields the same number of bytes, for every 64-bit size; each unit letter multiplies by the matching power of 1024.", "quantifier": "all 64-bit sizes", "why_tests_cant": "2^64 values.", "anchors": ["src/config/size.rs"]}
{"id": "C26", "title": "Durations survive display and parse", "statement": "Formatting a configured duration and parsing it back yields the same duration.", "quantifier": "all durations", "why_tests_cant": "Precision and overflow errors show only for particular values.", "anchors": ["src/config/duration.rs"]}
{"id": "C27", "title": "Header rules do what their operator says", "statement": "Applying a configured header rule: add appends a value and keeps existing ones, delete removes all values of the key, default sets only when absent, replace leaves exactly the configured value; headers with other names are untouched.", "quantifier": "all header lists and all rules", "why_tests_cant": "Quantifies over all header maps.", "anchors": ["src/helper.rs rewrite_header, rewrite_request, rewrite_response", "src/config/header.rs"]}
{"id": "C28", "title": "Wildcard paths", "statement": "A path pattern with '*' placeholders accepts a path only if the path can be split so that each placeholder stands for some (possibly empty) text and the literal parts appear in order; a pattern without '*' accepts only that path.", "quantifier": "all patterns and all paths", "why_tests_cant": "Infinite strings; greedy matching has corner cases.", "anchors": ["src/helper.rs is_match"]}
{"id": "C29", "title": "First matching location wins", "statement": "A request is served by the first location, in configuration order, whose rule's path, method, scheme, host and client address conditions all hold, within the server selected by the host name; a location with a false condition never serves. False of the code for a try path that follows one that was passed on to a backend: it is looked up with the Host that was written into the request for that backend.", "quantifier": "all configurations and requests", "why_tests_cant": "Quantifies over configurations.", "anchors": ["src/reverse/http.rs deal_match_location", "src/reverse/reverse_helper.rs get_location_by_req", "src/reverse/matcher.rs is_match_rule"]}
{"id": "C30", "title": "Deny lists are enforced", "statement": "A request from an address in deny_ip, or outside a configured allow_ip, of the location that would serve it is answered 503 and never reaches a backend or a file.", "quantifier": "all configurations, requests and client addresses", "why_tests_cant": "Quantifies over configurations and addresses.", "anchors": ["src/reverse/http.rs deal_match_location"]}
{"id": "C31", "title": "try_paths terminates", "statement": "Serving a request with try_paths redirections always finishes: every location is tried at most once per request.", "quantifier": "all configurations, including locations that redirect to each other", "why_tests_cant": "Termination for all, including cyclic, configurations.", "anchors": ["src/reverse/http.rs deal_match_location"]}
{"id": "C32", "title": "Configuration inheritance", "statement": "A location inherits from its server, and a server from the http section, exactly the settings it leaves unset; settings it sets itself win.", "quantifier": "all configurations", "why_tests_cant": "All combinations of set/unset options across three levels.", "anchors": ["src/reverse/common.rs copy_from_parent", "src/reverse/server.rs copy_to_child", "src/reverse/http.rs"]}
{"id": "C33", "title": "SOCKS5 requires authentication when configured", "statement": "When both a user name and password are configured, the SOCKS5 server connects to no target before the client has completed the user/password exchange with exactly those credentials.", "quantifier": "all client byte streams", "why_tests_cant": "All byte sequences.", "anchors": ["src/proxy/socks5.rs"]}
{"id": "C34", "title": "SOCKS5 addresses survive the wire", "statement": "An IPv4 or IPv6 socket address encoded into a SOCKS5 reply or UDP header is decoded to the same address and port, and a domain request yields exactly the requested name and port.", "quantifier": "all addresses, ports and domains", "why_tests_cant": "2^144 addresses.", "anchors": ["src/proxy/socks5.rs read_addr, encode_socket_addr"]}
{"id": "C35", "title": "A SOCKS5 client cannot crash the server", "statement": "No client byte sequence makes the SOCKS5 negotiation panic.", "quantifier": "all byte sequences, all segmentations", "why_tests_cant": "All inputs.", "anchors": ["src/proxy/socks5.rs"]}
{"id": "C36", "title": "HTTP proxy requires credentials when configured", "statement": "When both user name and password are configured, a request is forwarded only if it carries Proxy-Authorization Basic with exactly those credentials; otherwise the answer is 407 and no connection to the target is made.", "quantifier": "all requests and credentials", "why_tests_cant": "All header values.", "anchors": ["src/proxy/http.rs check_basic_auth, operate"]}
{"id": "C37", "title": "File server stays inside its root", "statement": "The file server never serves a file outside the configured root directory, whatever path the client requests.", "quantifier": "all request paths, including encoded dot segments", "why_tests_cant": "All strings.", "anchors": ["src/plugins/file_server.rs deal_request"]}
{"id": "C38", "title": "Hidden files stay hidden", "statement": "No response of the file server contains, or lists, a path matching the hide list.", "quantifier": "all request paths and hide lists", "why_tests_cant": "All strings.", "anchors": ["src/plugins/file_server.rs is_hide_path, deal_request"]}
{"id": "C39", "title": "Range requests", "statement": "For a range header the served interval is the one RFC 7233 prescribes for the file length; unsatisfiable ranges are answered 416.", "quantifier": "all range headers and file lengths", "why_tests_cant": "All strings and lengths.", "anchors": ["src/plugins/file_server.rs calc_bytes_range, after_file_response"]}
{"id": "C40", "title": "Conditional requests", "statement": "A request whose If-None-Match equals the current entity tag, or whose If-Modified-Since equals the modification second, gets 304 without body; otherwise the current content is sent; two versions of a file with different length or modification second have different tags.", "quantifier": "all files, metadata and header values", "why_tests_cant": "Injectivity over all pairs of metadata.", "anchors": ["src/plugins/file_server.rs try_cache, calc_etag"]}
{"id": "C41", "title": "UDP forwarding keeps client sessions apart", "statement": "A datagram goes upstream for a client at most as often as it came from that client, through a session opened for that client, to that session's upstream. What is sent to clients is, in order and without gap or duplicate, what the sessions received, each for the client the session was opened for, cut to 9096 bytes, plus one empty datagram at the end of each session; once the socket accepts it nothing stays behind.", "quantifier": "all histories of datagrams from all addresses and all schedules", "why_tests_cant": "Interleavings.", "anchors": ["src/reverse/stream.rs StreamUdp"]}
{"id": "C42", "title": "Reload keeps the service available", "statement": "A running generation of the server stops accepting only after the next one accepts, or after the next one failed to start, or after a stop request made while it was the newest, or when its own accept loop fails. If no start and no loop fails and nobody asks to stop, connections are accepted at every moment after the first, through any number of reloads, and in the end the newest generation alone is left. With the control port served, the process ends exactly when every generation has ended, and after a stop request it does end.", "quantifier": "all histories of start, failure, reload, stop, hand-over and finish events, in every interleaving", "why_tests_cant": "A statement about every interleaving of the generations with the control loop; a test sees one.", "anchors": ["src/control/server.rs", "src/wmcore.rs start_serve, run_serve"]}
{"id": "C43", "title": "Log patterns: text is reproduced", "statement": "Every log pattern made of literal text with the special characters escaped produces exactly that text.", "quantifier": "all texts", "why_tests_cant": "All strings.", "anchors": ["src/log/pattern/parser.rs", "src/log/pattern/mod.rs"]}
{"id": "C44", "title": "Log pattern width", "statement": "A field formatted with minimum width m and maximum width M produces the field truncated to M characters and padded with the fill character on the requested side to m characters.", "quantifier": "all fields (any Unicode), all widths, all ways the field is written in pieces", "why_tests_cant": "All strings and write chunkings.", "anchors": ["src/log/pattern/mod.rs MaxWidthWriter, LeftAlignWriter, RightAlignWriter"]}
{"id": "C45", "title": "Proxy kinds survive display and parse", "statement": "Formatting a set of proxy kinds and parsing it back yields the same set.", "quantifier": "all sets of kinds", "why_tests_cant": "Small but exhaustive domain incl. the empty set.", "anchors": ["src/flag.rs"]}
{"id": "C46", "title": "Listen address lists", "statement": "A listen specification 'ip:p-ip:q' denotes exactly the addresses with ports p..q inclusive; a comma list denotes the union; bad input is an error, never a crash.", "quantifier": "all specifications", "why_tests_cant": "All strings.", "anchors": ["src/config/wrap.rs"]}
{"id": "C47", "title": "Health-check targets", "statement": "The list of addresses to be actively health-checked that is computed from a configuration is exactly the set of its non-UDP backend addresses, each once. (The server computes the list but never starts the checker.)", "quantifier": "all configurations", "why_tests_cant": "All configurations.", "anchors": ["src/option.rs get_health_check, try_add_upstream"]}
{"id": "C48", "title": "Protocol detection loses no bytes", "statement": "On a port serving both HTTP and SOCKS5, when the connection is handed from the HTTP handler to the SOCKS5 handler, every byte the client sent is still processed exactly once.", "quantifier": "all client byte streams and segmentations", "why_tests_cant": "All inputs.", "anchors": ["src/proxy/server.rs deal_proxy", "src/proxy/http.rs process", "src/proxy/socks5.rs process"]}
{"id": "C49", "title": "One slow stream does not stall the tunnel", "statement": "On the center server a stream whose handler stops reading does not prevent frames of other streams from being delivered, nor the tunnel from being read and written.", "quantifier": "all histories in which one handler stays idle", "why_tests_cant": "A statement about every continuation of a history.", "anchors": ["src/streams/center_server.rs inner_serve (sender.send(p).await)"]}
{"id": "C50", "title": "The tunnel client keeps serving", "statement": "Whatever frames arrive and whatever local handlers send, the tunnel client's loop can always take its next step: it never waits for an event only it can produce.", "quantifier": "all histories", "why_tests_cant": "A deadlock needs one particular interleaving out of infinitely many.", "anchors": ["src/streams/center_client.rs inner_serve (sender.send(ProtClose).await)"]}
{"id": "C51", "title": "A stream is announced before its data", "statement": "On the tunnel, the frame that creates a stream is always written before the first data frame of that stream.", "quantifier": "all interleavings of the thread that opens streams with the tunnel loop's polling of its two queues", "why_tests_cant": "A race between two queues; needs one particular interleaving.", "anchors": ["src/streams/center_server.rs inner_serve (receiver_work, receiver)", "src/streams/center_client.rs inner_serve"]}
{"id": "C52", "title": "Reloaded rate limits take effect", "statement": "After a configuration is loaded again with different numbers for a limit zone, requests are judged by the new numbers.", "quantifier": "all zones, all pairs of configurations", "why_tests_cant": "Depends on process-wide state left by earlier configurations.", "anchors": ["src/data/limit_req_data.rs cache"]}
{"id": "C53", "title": "Connecting avoids failed backends", "statement": "Connecting to a name that resolves to several addresses succeeds with a reachable address that is not marked failed whenever there is one, never contacts an address marked failed, and records the outcome of every attempt and nothing else.", "quantifier": "all address lists, health states and reachability", "why_tests_cant": "Quantifies over all health histories and reachability patterns.", "anchors": ["src/check/health.rs connect"]}
{"id": "C54", "title": "Limit settings survive display and parse", "statement": "Formatting a limit zone or a limit_req setting and parsing it back yields the same setting.", "quantifier": "all zone names, limits, counts, periods and bursts", "why_tests_cant": "Ranges over all 64-bit numbers, all durations and all names.", "anchors": ["src/reverse/limit_req.rs Display, FromStr", "src/config/rate.rs"]}
{"id": "C55", "title": "Header rules survive display and parse", "statement": "Formatting a header rule and parsing it back yields the same rule.", "quantifier": "all operators, targets, names and values", "why_tests_cant": "Ranges over all names and values.", "anchors": ["src/config/header.rs Display, FromStr", "src/helper.rs split_by_whitespace"]}
{"id": "C56", "title": "Configuration text never crashes the parser", "statement": "Every text given as a size, duration, limit, header rule, proxy kind or log setting yields a value or an error.", "quantifier": "all texts", "why_tests_cant": "Ranges over all texts; a crash hides in one of them.", "anchors": ["src/config/header.rs", "src/config/size.rs", "src/config/duration.rs", "src/config/log.rs", "src/flag.rs", "src/reverse/limit_req.rs"]}
{"id": "C57", "title": "Log settings survive display and parse", "statement": "Formatting an access or error log setting and parsing it back yields the same file, format and level.", "quantifier": "all names and formats without blanks, all levels", "why_tests_cant": "Ranges over all names and formats.", "anchors": ["src/config/log.rs"]}
{"id": "C58", "title": "A rule's client address condition is honoured", "statement": "A match rule with a remote_ip condition holds only for requests whose client address is in the configured set.", "quantifier": "all rules, requests and client addresses", "why_tests_cant": "Quantifies over all rules and addresses.", "anchors": ["src/reverse/matcher.rs is_match_rule"]}
{"id": "C59", "title": "A kept backend connection that died costs no request", "statement": "A request for a healthy backend is answered by that backend also when an idle connection kept from an earlier request has been closed meanwhile.", "quantifier": "all histories of requests and of connections closed in between", "why_tests_cant": "A race between the backend closing and the next request.", "anchors": ["src/reverse/http.rs deal_match_location"]}
{"id": "C60", "title": "Header rules apply to every request", "statement": "The configured header rules and the Host rewriting are applied to each request and each response the same way, whether the backend connection is new or reused.", "quantifier": "all configurations, requests and responses", "why_tests_cant": "Depends on the connection history, which single request tests do not vary.", "anchors": ["src/reverse/location.rs deal_reverse_proxy", "src/reverse/http.rs"]}
{"id": "C61", "title": "The file server of a location uses the location's settings", "statement": "Files requested through a location are taken from the root the location configures and with its prefix and limits.", "quantifier": "all configurations", "why_tests_cant": "All combinations of settings across levels.", "anchors": ["src/reverse/location.rs", "src/reverse/common.rs", "src/plugins/file_server.rs"]}
{"id": "C62", "title": "SOCKS5 data sent with the request arrives", "statement": "Everything a SOCKS5 client sends after its CONNECT request is forwarded to the target, also when it is sent before the reply.", "quantifier": "all client byte streams and segmentations", "why_tests_cant": "Depends on how the network cuts the byte stream.", "anchors": ["src/proxy/socks5.rs process, tcp_read_request"]}
{"id": "C63", "title": "A SOCKS5 UDP association serves its client only", "statement": "Datagrams are relayed only for the client that opened the association, replies go only to that client, and datagrams of others have no effect.", "quantifier": "all histories of datagrams from all addresses", "why_tests_cant": "Interleavings of datagrams from different senders.", "anchors": ["src/proxy/socks5.rs udp_execute_assoc, udp_handle_request, udp_handle_response"]}
{"id": "C64", "title": "SOCKS5 negotiation does not depend on segmentation", "statement": "The server's answers depend on the bytes the client sends, not on how they are cut into segments.", "quantifier": "all client byte streams and all pairs of segmentations", "why_tests_cant": "Compares two segmentations of every byte stream.", "anchors": ["src/proxy/socks5.rs read_head_len, read_len"]}
{"id": "C65", "title": "HTTP proxy requests go to the host they name", "statement": "Every request of a client connection is forwarded to the host it names and to no other.", "quantifier": "all histories of requests on one client connection", "why_tests_cant": "Depends on the requests that came before.", "anchors": ["src/proxy/http.rs operate"]}
{"id": "C66", "title": "Proxy credentials are not forwarded", "statement": "The Proxy-Authorization header of a request is not passed on to the target.", "quantifier": "all histories of requests on one client connection", "why_tests_cant": "Depends on the requests that came before.", "anchors": ["src/proxy/http.rs operate"]}
{"id": "C67", "title": "A changed file is not taken for unchanged", "statement": "A client that holds a version of a file with another length or modification second, and sends that version's validators, gets the current content.", "quantifier": "all versions of a file and all conditional requests", "why_tests_cant": "Depends on every pair of versions and header combination.", "anchors": ["src/plugins/file_server.rs try_cache"]}
{"id": "C68", "title": "The file server does not crash", "statement": "No request path makes the handler panic.", "quantifier": "all configurations and request paths", "why_tests_cant": "Infinitely many paths; encoded forms interact with the prefix.", "anchors": ["src/plugins/file_server.rs deal_request"]}
{"id": "C69", "title": "Configured content types are used", "statement": "A file whose extension has a configured content type is sent with that type.", "quantifier": "all extensions and configurations", "why_tests_cant": "Depends on every extension.", "anchors": ["src/plugins/file_server.rs get_mimetype"]}
{"id": "C70", "title": "A missing file is answered with the configured status", "statement": "A request for a file that does not exist is answered with the configured status, with or without an error page.", "quantifier": "all configurations, file systems and request paths", "why_tests_cant": "Depends on the whole file system and configuration.", "anchors": ["src/plugins/file_server.rs ret_error_msg, deal_request"]}
{"id": "C71", "title": "Links of a directory listing work", "statement": "Requesting the link shown for an entry of a listing yields that entry.", "quantifier": "all directories and names", "why_tests_cant": "Names are arbitrary text.", "anchors": ["src/plugins/file_server.rs deal_request"]}
{"id": "C72", "title": "Compressed content is labelled", "statement": "When a precompressed file is sent in place of the original, the response names its encoding, which the client accepts.", "quantifier": "all configurations, file systems and requests", "why_tests_cant": "Depends on combinations of options and files.", "anchors": ["src/plugins/file_server.rs build_response_by_file, after_file_response"]}
{"id": "C73", "title": "A UDP client can always reach the upstream again", "statement": "Whatever happened to a client's session before, a datagram of the client sent while an upstream is available goes upstream.", "quantifier": "all histories and schedules", "why_tests_cant": "Needs a failure of the session at some point and a statement about the unbounded rest of the history.", "anchors": ["src/reverse/stream.rs StreamUdp::process_data, poll_sender, deal_udp_bind"]}
{"id": "C74", "title": "Only the upstream can answer a UDP client", "statement": "A datagram is forwarded to a client only if the upstream of its session sent it.", "quantifier": "all histories and senders", "why_tests_cant": "Senders are arbitrary.", "anchors": ["src/reverse/stream.rs StreamUdp::deal_udp_bind"]}
{"id": "C75", "title": "UDP sessions that have ended are forgotten", "statement": "The table of sessions has no entry for a client whose session has ended and whose timeout has passed.", "quantifier": "all histories", "why_tests_cant": "A statement about every later state of the server.", "anchors": ["src/reverse/stream.rs StreamUdp::process_data"]}
{"id": "C76", "title": "UDP replies reach the client unchanged", "statement": "The client receives exactly the datagrams the upstream sent: complete, and no others.", "quantifier": "all histories, datagrams of every size", "why_tests_cant": "Datagrams of every size and histories with ended sessions.", "anchors": ["src/reverse/stream.rs StreamUdp::deal_udp_bind, process_data"]}
{"id": "C77", "title": "Log patterns: the documented grammar is accepted", "statement": "Every pattern written according to the documented grammar is read as the text, formatters, arguments and format specifications it was written from.", "quantifier": "all patterns of the grammar, nested to any depth", "why_tests_cant": "A grammar with nested arguments, infinitely many patterns.", "anchors": ["src/log/pattern/parser.rs Parser"]}
{"id": "C78", "title": "Log patterns: documented formatters show their value", "statement": "Every formatter of the documentation inserts the value it documents, and an unknown one is reported in the line.", "quantifier": "all records and format specifications", "why_tests_cant": "All records.", "anchors": ["src/log/pattern/mod.rs FormattedChunk::encode, From<Piece>"]}
{"id": "C79", "title": "A configured pattern cannot crash a request", "statement": "Rewriting a configured text for a request (headers, static responses, limit keys) never panics.", "quantifier": "all configured texts and requests", "why_tests_cant": "All patterns.", "anchors": ["src/helper.rs Helper::format_req", "src/log/pattern/mod.rs"]}
{"id": "C80", "title": "Log lines are complete", "statement": "What a log line contains does not depend on the portions in which the underlying writer takes it.", "quantifier": "all patterns, records and schedules of partial writes", "why_tests_cant": "All schedules of partial writes.", "anchors": ["src/log/pattern/mod.rs"]}
{"id": "C81", "title": "The configuration shown is the one in force", "statement": "GET /now on the control port answers with the configuration of the running generation. False of the code: it always answers with the configuration the process was started with.", "quantifier": "all histories of requests and events", "why_tests_cant": "All histories.", "anchors": ["src/control/server.rs inner_operate, do_restart_serve"]}
{"id": "C82", "title": "The answer to /reload says whether it worked", "statement": "GET /reload reports success only if the configuration could be read and the new generation started. False of the code: every /reload that gets the lock answers success, unless the logs of the new configuration cannot be set up (then nobody answers), and with an unreadable configuration nothing else happens.", "quantifier": "all histories of requests and events, all outcomes of reading the configuration", "why_tests_cant": "All histories.", "anchors": ["src/control/server.rs inner_operate, do_restart_serve"]}
{"id": "C83", "title": "A failed reload leaves the service running", "statement": "If the new generation of a reload cannot be started, the running generation goes on serving. False of the code: the failure of the newest generation to start closes the running one too, and the process ends.", "quantifier": "all histories without a panic in which the newest generation fails to start, all continuations", "why_tests_cant": "The running generation notices only after the failed one has dropped its sender; all interleavings matter.", "anchors": ["src/control/server.rs inner_start_server", "src/wmcore.rs start_serve, run_serve"]}
{"id": "C84", "title": "Every generation is counted out", "statement": "When every generation has stopped serving, the process ends. False of the code for a generation that panicked while starting, after which not even /stop ends the process, and when the control port could not be bound.", "quantifier": "all histories with a panicking start, all continuations; all histories without control port", "why_tests_cant": "All continuations.", "anchors": ["src/control/server.rs inner_start_server, start_control"]}
{"id": "C85", "title": "Each visitor is announced to the tunnel client once, in order, under the right name", "statement": "The stream openings the tunnel server sends are exactly the visits some registered mapping answers, each once, in the order of the visits, named as the mappings of the latest registration say (an HTTP visitor by its Host, a tcp or proxy visitor by the name of the last mapping of that mode); the data sent on each stream is exactly what its visitor sent, in order.", "quantifier": "all credentials, all histories of the tunnel server (all visits, registrations, interleavings and partial writes)", "why_tests_cant": "Registrations and visits interleave arbitrarily; order and multiplicity are statements about whole histories.", "anchors": ["src/streams/center_server.rs inner_serve, server_new_http, server_new_tcp, server_new_proxy", "src/trans/tcp.rs TransTcp::process", "src/trans/http.rs inner_operate"]}
{"id": "C86", "title": "A client with the right credentials is always let in", "statement": "A tunnel client configured with the credentials of the server sends them and its mappings before anything else, is never refused, and is registered with exactly its mappings (without their private local addresses) once they have arrived.", "quantifier": "all credentials that fit the wire format, all mapping lists, all histories of both sides and all portions in which the bytes travel", "why_tests_cant": "Two asynchronous machines and a byte stream cut anywhere.", "anchors": ["src/streams/center_client.rs inner_serve", "src/streams/center_server.rs inner_serve", "src/prot/token.rs is_check_succ"]}
{"id": "C87", "title": "A local service is contacted only for a visitor", "statement": "The tunnel client opens a connection to a local address only for a stream a visitor opened at the server, and the address is that of the mapping of the client serving the name the visitor asked for.", "quantifier": "all configurations with equal credentials, all histories of both sides", "why_tests_cant": "A safety property of the combined histories of two machines.", "anchors": ["src/streams/center_client.rs inner_serve", "src/streams/center_server.rs inner_serve"]}
{"id": "C88", "title": "A visitor reaches the mapping meant", "statement": "The local service contacted for a visitor is that of the mapping the visitor means: the one whose domain is the Host asked for, or the last of the mode. Proved when no name or domain occurs twice. False of the code otherwise: the client matches the Host of a visitor against names too, so a mapping named like another's domain takes its visitors.", "quantifier": "all mapping lists without repeated names and domains, all histories of both sides", "why_tests_cant": "All mapping lists and histories.", "anchors": ["src/streams/center_client.rs inner_serve", "src/trans/http.rs inner_operate"]}
{"id": "C89", "title": "Bytes through the tunnel arrive intact", "statement": "What the tunnel client has received on a stream is an initial part of what the visitor sent on it, and what the visitor has received is an initial part of what the local service sent: nothing lost in the middle, duplicated, reordered or taken from another stream. Towards the local service only as long as the client's queue of that service did not overflow (C11).", "quantifier": "all configurations with equal credentials, all histories of both sides, all portions in which bytes travel", "why_tests_cant": "All interleavings of any number of streams.", "anchors": ["src/streams/center_client.rs inner_serve", "src/streams/center_server.rs inner_serve", "src/prot/data.rs"]}
{"id": "C90", "title": "A failed local connection is reported", "statement": "When the tunnel client cannot connect to the local service of a stream, a close of that stream is put on the tunnel.", "quantifier": "all histories of the tunnel client before and after the failure, in which the send queue has room when it happens", "why_tests_cant": "The close must survive every later history.", "anchors": ["src/streams/center_client.rs inner_serve"]}
{"id": "C91", "title": "Half a pair of credentials never logs in", "statement": "A tunnel client configured with a user name but no password, or the reverse, is never served by a server configured the same way, although nothing is wrong with what the server would accept: the client sends neither.", "quantifier": "all such configurations and all histories of both sides", "why_tests_cant": "All histories.", "anchors": ["src/streams/center_client.rs inner_serve", "src/streams/center_server.rs inner_serve"]}
{"id": "C92", "title": "A reconnected tunnel is as good as the first", "statement": "On every connection the tunnel client makes, whatever happened on earlier ones, it sends its credentials and mappings before anything else, is never refused by a server with the same credentials, is registered with exactly its mappings once they have arrived, and contacts local services only for visitors of that connection.", "quantifier": "all histories of all earlier connections, all histories of both sides on this one", "why_tests_cant": "Quantifies over histories of several connections whose queues are shared.", "anchors": ["src/streams/center_client.rs serve, inner_serve", "src/streams/center_server.rs inner_serve"]}
{"id": "C93", "title": "A visitor receives only what the service sent for it", "statement": "Across reconnections the tunnel client sends every byte of a local service exactly once and in order, and a visitor receives an initial part of what the service sent for its stream. Proved for visitors whose stream number had nothing queued when the connection was made. False of the code otherwise: stream numbers start over on a new connection but the send queue is kept, so a new visitor can receive the answer meant for a visitor of the broken connection.", "quantifier": "all histories of all connections", "why_tests_cant": "Needs a disconnection at an exact point of a history.", "anchors": ["src/streams/center_client.rs serve, inner_serve", "src/streams/center_server.rs calc_next_id"]}
{"id": "C94", "title": "A tunnel ends only when its connection does", "statement": "Between a tunnel client and a tunnel server with the same credentials, neither side ends a connection because of what the other sends: the client's loop ends only after the connection was closed or failed on reading, and the server's likewise as long as no write fails.", "quantifier": "all configurations with equal credentials, all histories of both sides including reconnections, all portions in which bytes travel", "why_tests_cant": "All histories of two machines; a single undecodable cut would end the tunnel.", "anchors": ["src/streams/center_client.rs inner_serve", "src/streams/center_server.rs inner_serve", "src/helper.rs decode_frame"]}
{"id": "C95", "title": "A server cannot stop the client for good", "statement": "Whatever a server sends, the tunnel client goes on or reconnects. Proved for everything but a token frame and input on which the frame decoder itself crashes. False of the code for a token frame: it ends the client's task for ever, at any point of any history.", "quantifier": "all histories of all connections, all continuations", "why_tests_cant": "All histories and all continuations.", "anchors": ["src/streams/center_client.rs serve, inner_serve"]}
{"id": "C96", "title": "A request through the tunnel reaches the site it names", "statement": "Every HTTP request on a visitor's connection is served by the mapping that owns its Host at that moment, with that mapping's header rules, over one stream per connection. Proved for the first request and for later requests with the same Host while the mappings stay. False of the code for a later request with another Host: it is sent to the site of the first request.", "quantifier": "all registrations at all times, all sequences of requests on a connection, all outcomes at the service, all comparisons of header names and placeholder expansions", "why_tests_cant": "All histories of a connection and of registrations.", "anchors": ["src/trans/http.rs inner_operate, process", "src/helper.rs rewrite_request, rewrite_response"]}
{"id": "C97", "title": "An unknown host is answered as not found, and only it", "statement": "A request for a Host no mapping owns opens no stream and is answered as not found; a request for a Host some mapping owns is served. Proved for the first request on a connection. False of the code later: after one unknown Host no request on that connection is ever served; and the answer carries status 200.", "quantifier": "all registrations at all times, all sequences of requests on a connection", "why_tests_cant": "All histories of a connection and of registrations.", "anchors": ["src/trans/http.rs inner_operate, not_found_response"]}
{"id": "C98", "title": "Configured HTTP addresses are listened on, each once", "statement": "When the http section starts, exactly the addresses its servers list are listened on, each once. It starts when every address can be bound, every configured certificate loads and every server with TLS addresses has one.", "quantifier": "all lists of servers, addresses and certificates, and all outcomes of binding", "why_tests_cant": "All configurations, with shared and repeated addresses.", "anchors": ["src/reverse/http.rs bind"]}
{"id": "C99", "title": "Addresses configured for TLS are served over TLS", "statement": "An address some server lists under bind_ssl is served over TLS. Proved for addresses that no server lists as plain; exactly, the first entry of the configuration for an address decides. False of the code otherwise: if an earlier entry lists the address as plain the service starts and answers plain HTTP there.", "quantifier": "all configurations that start", "why_tests_cant": "All orders of all configurations.", "anchors": ["src/reverse/http.rs bind"]}
{"id": "C100", "title": "A connection is answered only by servers of its address", "statement": "A connection is answered only by servers that list the address it was accepted on. Proved for the port. False of the code for the IP address: a server listening only on 127.0.0.1:80 answers requests that name it on a connection to another address with port 80.", "quantifier": "all configurations, listeners, server names sent by the client and Hosts", "why_tests_cant": "All configurations and requests.", "anchors": ["src/wmcore.rs do_start_proxy", "src/reverse/http.rs inner_operate_by_http"]}
{"id": "C101", "title": "The TLS server name pins the server", "statement": "On a TLS connection whose client named a server of that port, the first such server answers every request, whatever Host it carries.", "quantifier": "all configurations, names and Hosts", "why_tests_cant": "All configurations and requests.", "anchors": ["src/wmcore.rs do_start_proxy"]}
{"id": "C102", "title": "Configured stream addresses are listened on", "statement": "Every address of the stream section is listened on, in its mode. Proved when no two entries have the same port; exactly, only the first entry of each port is. False of the code otherwise: a second entry for a port, on another IP address or for udp next to tcp, is silently left out.", "quantifier": "all stream sections that start", "why_tests_cant": "All configurations.", "anchors": ["src/reverse/stream.rs bind"]}
{"id": "C103", "title": "A stream connection goes to its own server's backends", "statement": "A TCP stream connection is given to the backends of the server whose entry opened the listener it was accepted on.", "quantifier": "all stream sections that start, all listeners", "why_tests_cant": "All configurations with shared ports.", "anchors": ["src/reverse/stream.rs bind, process"]}
{"id": "C104", "title": "Stream connections do not wait for each other", "statement": "The TCP connections of the stream section are relayed independently of each other. Proved: a connection whose turn it is is relayed in full. False of the code: connections take turns. Backends are contacted in the order of acceptance, each only after all earlier connections have ended, and while a first connection stays open nothing happens for any other.", "quantifier": "all sequences of accepted connections, bytes and ends", "why_tests_cant": "Quantifies over all histories of several connections.", "anchors": ["src/reverse/stream.rs process", "src/wmcore.rs do_start_proxy"]}
{"id": "C105", "title": "WebSocket upgrades are only accepted where they are configured", "statement": "A WebSocket upgrade is only ever connected by a location that is configured for WebSockets, and that location is the first, of a server the Host header selects, whose conditions the request meets; no location of an earlier selected server could have served it.", "quantifier": "all configurations, all upgrade requests", "why_tests_cant": "All configurations and requests.", "anchors": ["src/reverse/reverse_helper.rs get_location_by_req", "src/reverse/ws.rs on_open"]}
{"id": "C106", "title": "A file's media type follows the configuration", "statement": "The Content-Type of a served file is the type the configuration gives for its extension, or else the built-in type of the extension. False of the code: a type configured for an extension with a built-in type is ignored.", "quantifier": "all file names, all configured tables, all built-in tables", "why_tests_cant": "All names and tables.", "anchors": ["src/plugins/file_server.rs FileServer"]}
{"id": "C107", "title": "Visitors go to the longest-connected tunnel, each under its own stream number", "statement": "A visitor of a mapped port is given to the tunnel client that has been connected for longest among those still connected, and is turned away only when none is. Tunnels are numbered in the order they are opened. Within one tunnel the visitors' stream numbers are even and, up to 2^31 visitors, all different.", "quantifier": "all histories of connections, visitors, ended tunnels and stops", "why_tests_cant": "Quantifies over all histories of the accept loop.", "anchors": ["src/wmcore.rs run_serve, server_new_http, server_new_tcp", "src/streams/center_server.rs server_new_http, calc_next_id, is_close"]}
{"id": "C108", "title": "A visitor reaches the client that registered the service", "statement": "A visitor of a mapped port is given to the tunnel client whose mapping it asks for. Proved: with exactly one client connected, it is given to that client. False of the code: while an earlier client is connected, no visitor is ever given to a later one, whatever the two have registered.", "quantifier": "all histories of the accept loop", "why_tests_cant": "Quantifies over all histories of several clients.", "anchors": ["src/wmcore.rs server_new_http, server_new_https, server_new_tcp, server_new_prxoy"]}
{"id": "C109", "title": "The accept loop keeps accepting", "statement": "The connections of each port are settled in the order of arrival, none twice and none skipped; as long as the loop has not returned the next connection of every port can be accepted, and a stop is obeyed at once. The order is proved always; the rest without TLS on the tunnel port, upper server and tunnel client. False of the code otherwise: one peer of the TLS tunnel port that stays silent, one upper server that does not answer, or a full queue of the tunnel client stop all ports and the stop signal, for every history until that peer acts.", "quantifier": "all configurations, all histories of the accept loop", "why_tests_cant": "Quantifies over all histories, including peers that never act.", "anchors": ["src/wmcore.rs run_serve, deal_center_stream, deal_client_stream", "src/streams/center_trans.rs serve", "src/streams/center_client.rs deal_new_stream"]}
{"id": "C110", "title": "TLS of the tunnel is in force exactly when it is configured and loadable", "statement": "After a start, TLS is in force on the tunnel port exactly when it is configured, the certificate file is readable and the key file holds exactly one RSA key that fits; likewise for the client's side. While it is in force no connection becomes a tunnel or is passed on before its handshake. When the files cannot be used, server and client start all the same and use the clear.", "quantifier": "all configurations, file contents, TLS libraries and histories", "why_tests_cant": "All file contents and histories.", "anchors": ["src/option.rs get_tls_accept, get_tls_request, load_certs, load_keys, bind", "src/wmcore.rs run_serve"]}
{"id": "C111", "title": "A started server listens on the configured ports", "statement": "A started server listens at exactly the configured addresses of the proxy section, except that the https port is listened on only when its certificate and key can be used. An address that cannot be bound makes the start fail. An https connection never finds the server without its TLS acceptor.", "quantifier": "all configurations and file contents", "why_tests_cant": "All configurations.", "anchors": ["src/option.rs bind, bind_map, get_map_tls_accept"]}
{"id": "C112", "title": "An unreachable server does not end the proxy", "statement": "Starting, or reloading, with a tunnel server that cannot be reached reports an error or retries. Proved: when the server is reached, or none is needed, the process is not ended. False of the code: otherwise the whole process exits.", "quantifier": "all configurations, reachable and unreachable servers", "why_tests_cant": "All environments.", "anchors": ["src/option.rs bind"]}
{"id": "C113", "title": "A tunnel keeps moving", "statement": "Everything the peer of a tunnel has sent is read, and everything the streams have queued is written, when the loop is polled and the socket takes it. Proved while the configuration that opened the tunnel is in force or one of its visitors is connected. False of the code after a reload: once no visitor is left the loop spins, nothing is read from or written to the connection again, for every later history, and the connection stays open.", "quantifier": "all interleavings of the loop's polls with the tasks that use the tunnel and with reloads", "why_tests_cant": "Quantifies over all interleavings and all futures.", "anchors": ["src/streams/center_server.rs inner_serve", "src/streams/center_client.rs inner_serve", "src/control/server.rs inner_start_server"]}
{"id": "C114", "title": "Frames keep their order in a tunnel end", "statement": "Data and close frames are put on the wire in the order the streams queued them, creations in the order they were queued, and incoming bytes are taken in order; none is dropped or doubled.", "quantifier": "all interleavings of the loop's polls with the tasks that use the tunnel", "why_tests_cant": "Quantifies over all interleavings.", "anchors": ["src/streams/center_server.rs inner_serve", "src/streams/center_client.rs inner_serve"]}
{"id": "C115", "title": "Active checks keep their interval", "statement": "Each turn of the active checker starts a check of exactly those listed addresses that it has not checked within their interval; once nobody can send it new lists it takes the one that is left and starts no further checks; and two check requests that are let through for one address are further apart than the interval asked for, whatever was recorded in between.", "quantifier": "all lists of addresses, all clocks that do not go back, all histories of the health records", "why_tests_cant": "Quantifies over all histories and times.", "anchors": ["src/check/active.rs repeat_check, do_check", "src/check/health.rs check_can_request"]}
{"id": "C116", "title": "Supervision restarts the same command until it succeeds", "statement": "With --forever the command line without that option is run; every child that does not end with status 0 is followed by another run of exactly the same command, and after the first that does no further one is started.", "quantifier": "all command lines and all sequences of child results", "why_tests_cant": "Unbounded histories of restarts.", "anchors": ["src/arg.rs parse_env"]}
{"id": "C117", "title": "A failure is visible in the exit status", "statement": "A server that could not be started or failed ends with a status other than 0, so that a supervisor starts it again. Proved for panics while the command line is read and logging is set up. False of the code otherwise: every error, of reading the configuration or of the servers, ends with status 0, and supervision ends with it.", "quantifier": "all command lines, files and ways to fail", "why_tests_cant": "All files and failures.", "anchors": ["src/main.rs run_main, main", "src/arg.rs parse_env", "src/control/server.rs start_serve"]}
{"id": "C118", "title": "Shared options are honoured", "statement": "The control address, control switch, output switch, pid file, level and verbosity given on the command line are the ones the server uses. Proved for the proxy command, and for file-server, reverse-proxy and ws-proxy apart from the control port, which these always disable. False of the code for run: it uses none of them but --verbose.", "quantifier": "all command lines, configurations and file contents", "why_tests_cant": "All option combinations.", "anchors": ["src/arg.rs parse_env, Shared"]}
{"id": "C119", "title": "The options of file-server take effect", "statement": "Every option of file-server has its effect on the one site that is served. Proved for the root, addresses, cache time, robots, 404 page and CORS, and with --listen-ssl for certificate, key and domain. False of the code for --browse and --ext-mimetype, which change nothing: directories are always listed and no type is added. False of the code for --access-log path as well: nothing is logged unless the value ends with the word trace (then each request at a location is one line in that file; the same for reverse-proxy, while ws-proxy never opens the file). False of the code for --header: the rules reach the site, but no answer is changed by them.", "quantifier": "all options of the command", "why_tests_cant": "All option combinations.", "anchors": ["src/arg.rs parse_env, FileServerConfig", "src/plugins/file_server.rs new"]}
{"id": "C120", "title": "ws-proxy converts in the mode it accepts", "statement": "The accepted modes are ws2tcp, tcp2ws and tcp2wss in any mixture of cases, and the accepted mode is the conversion that is done. False of the code unless the mode is written in lower case: with any other accepted spelling bytes are forwarded without conversion.", "quantifier": "all mode texts", "why_tests_cant": "All spellings.", "anchors": ["src/arg.rs parse_env", "src/reverse/stream.rs process"]}
{"id": "C121", "title": "check tells whether run can read the configuration", "statement": "check calls a file correct exactly if run gets past reading it, and its status says the same. Proved for what it prints. False of the code for the status, which is 0 for good and bad files; and a readable file whose name has no dot makes check, run, stop and reload crash.", "quantifier": "all files and file names", "why_tests_cant": "All file names and contents.", "anchors": ["src/arg.rs parse_env, read_config_from_path"]}
{"id": "C122", "title": "stop and reload ask the right server and report the outcome", "statement": "stop and reload ask the control address of the given configuration file, or else the given URL, with the path of the command; they print success exactly for status 200; their exit status says whether they had success. False of the code for the exit status, which is 0 for every answer and when the server cannot be reached.", "quantifier": "all configurations, URLs and answers", "why_tests_cant": "All answers.", "anchors": ["src/arg.rs parse_env"]}
{"id": "C123", "title": "reverse-proxy sends every request to the given address only", "statement": "The site of reverse-proxy has one rule, which takes every request whatever its path, method, host, scheme and client; its only backend is the given address, asked over TLS exactly with --tls; and every request is forwarded to it. Proved for every history of health records in which the latest result for the address is not between thirty and sixty seconds old. False of the code otherwise: after three failures and half a minute without results no member is chosen, and the request goes to whatever host is called server.", "quantifier": "all options, requests, health records and random draws", "why_tests_cant": "All requests and histories of health records.", "anchors": ["src/arg.rs parse_env", "src/reverse/matcher.rs is_match_rule", "src/reverse/upstream.rs get_server_addr, new_single", "src/reverse/location.rs deal_reverse_proxy"]}
{"id": "C124", "title": "stop with a pid file signals only a running server", "statement": "wmproxy stop with a pid file signals a server that runs with this file; a server removes the file at its end exactly if the file names it. Proved when each server ended by itself before the next started. False of the code after a signal, that of stop itself included: the file stays, and every later stop signals whichever process has the number now, until another server writes the file.", "quantifier": "all histories of starts, ends, signals and stops", "why_tests_cant": "Unbounded histories.", "anchors": ["src/helper.rs try_create_pidfile, try_remove_pidfile", "src/main.rs run_main", "src/arg.rs parse_env, kill_process_by_id"]}
{"id": "C125", "title": "A request is forwarded to a member of the upstream its location names", "statement": "A request of a location with proxy_url is forwarded to the member chosen among the upstream of the URL's host, under the member's own address and port, or to that host itself if no upstream has the name; over TLS exactly if the URL's scheme, or without one the scheme of the request, is not http. False of the code in two cases: when the upstream has no member to offer, the name of the upstream is looked up as a host and the request goes there; and a URL without a host ends the connection of the client.", "quantifier": "all URLs, upstreams, choices and requests", "why_tests_cant": "All configurations and health histories.", "anchors": ["src/reverse/location.rs deal_reverse_proxy", "src/reverse/reverse_helper.rs get_upstream_addr"]}
{"id": "C126", "title": "A stream connection goes to a member of the upstream its server names", "statement": "A connection to a stream server goes to the member chosen among the upstream of its proxy_url's host, or of its up_name without a URL, or to the first address of the host if no upstream has the name. False of the code if the URL has a port: it replaces the port of the member, so the connection goes to an address no member has; and when the upstream has no member to offer the connection goes to a host of the upstream's name or fails, whatever up_name says.", "quantifier": "all URLs, upstreams, choices and name resolutions", "why_tests_cant": "All configurations and health histories.", "anchors": ["src/reverse/server.rs get_addr_domain", "src/reverse/stream.rs process"]}
{"id": "C127", "title": "An accepted websocket is relayed to its backend", "statement": "An accepted websocket is relayed: every frame taken from one side arrives at the other, the same kind and bytes, in order, with at most ten frames waiting per direction. Proved for a location with an upstream, towards the backend until its connection ends. False of the code for a proxy_url that names a host and no upstream: the websocket is accepted and every frame of the client is dropped without an error. Frames that wait when the backend connection ends are lost.", "quantifier": "all interleavings of frames and deliveries, all locations", "why_tests_cant": "Unbounded interleavings of two tasks and two channels.", "anchors": ["src/reverse/ws.rs ServerWsOperate, ClientWsOperate", "src/reverse/location.rs get_reverse_url, get_upstream_addr"]}
{"id": "C128", "title": "Time limits apply to the connections of the server that sets them", "statement": "Each client and backend time limit of a server takes effect on its connections, an absent one sets no limit. Proved for each setting of the first server of a listener and for backend connections. False of the code for the client limits of all other servers of the listener: the connection has those of the first server whatever host it asks for.", "quantifier": "all settings and lists of servers", "why_tests_cant": "All combinations of settings and servers.", "anchors": ["src/reverse/common.rs build_client_timeout, build_proxy_timeout", "src/reverse/http.rs process"]}
{"id": "C129", "title": "A backend that does not answer in time counts as failed", "statement": "A backend address that cannot be connected to, because it refuses or does not answer within proxy_connect_timeout, is recorded as failed, and the next address is tried. Proved for addresses that refuse. False of the code for addresses that do not answer: nothing is recorded after any number of attempts, so they are never taken out, and later addresses are not tried.", "quantifier": "all addresses, histories of attempts and times", "why_tests_cant": "Unbounded histories of attempts.", "anchors": ["src/check/health.rs connect_timeout, connect"]}
{"id": "C130", "title": "Every request is answered once", "statement": "Every request that reaches a site gets exactly one answer if no handler panics: the one of its location, or the refusal of a rule, carrying the server header; or 500, or 408 if the backend let a read time limit run out, when the location failed.", "quantifier": "all sites, requests, handlers, connection caches and failures", "why_tests_cant": "All recursion patterns of try paths and all handler behaviours.", "anchors": ["src/reverse/http.rs operate, inner_operate_by_http, deal_match_location"]}
{"id": "C131", "title": "The lines of a log go to the file its site gives it", "statement": "A log's lines go to the file that the configuration of the site gives for the log's name, filtered by the level given there. Proved for names of the http section and for names whose definitions agree. False of the code if two sites give different files to the same name: the lines of both go to the file of the first.", "quantifier": "all configurations, names, levels and texts of entries", "why_tests_cant": "All combinations of definitions on three levels.", "anchors": ["src/helper.rs try_init_log", "src/option.rs get_log_names", "src/reverse/common.rs get_log_names, copy_from_parent"]}
{"id": "C132", "title": "Every request of a location is logged", "statement": "With an access log each request of the location is written, in the log's format, as one line to the log's file. Proved if the format is defined and the level of the access log is within the level of the file. False of the code otherwise, without any error; in particular an access log without a level and a file without a level never go together.", "quantifier": "all log configurations, formats and access logs", "why_tests_cant": "All combinations of levels, names and formats.", "anchors": ["src/helper.rs log_acess, try_init_log", "src/reverse/common.rs ConfigLog", "src/reverse/location.rs deal_request"]}
{"id": "C133", "title": "A log that cannot be set up is an error", "statement": "Logging is set up exactly if every file can be opened, every name is valid and no log is called stdout while output goes there. False of the code in that otherwise the start, or the reload, crashes instead of reporting an error.", "quantifier": "all log names, entries and file systems", "why_tests_cant": "All file systems and names.", "anchors": ["src/helper.rs try_init_log"]}
{"id": "C134", "title": "Other messages go to the default log and the terminal", "statement": "A message whose target is not a configured log goes, within the default level, to the terminal unless that is disabled, and to the file of the log called default if there is one, and nowhere else.", "quantifier": "all log names, levels and targets", "why_tests_cant": "All combinations of targets and levels.", "anchors": ["src/helper.rs try_init_log"]}
{"id": "C135", "title": "A kept backend connection serves its own site", "statement": "A request that goes over a kept backend connection goes over one opened for the same location of the same site. Proved if no two locations have the same rule, up_name and method; in general it was opened for a location with an equal rule, up_name and method. False of the code otherwise: on one client connection, a request for a second site is sent to the backend of the first if the rules of their locations are the same.", "quantifier": "all sites, sequences of requests on a connection, handlers and backends", "why_tests_cant": "All request sequences over all configurations.", "anchors": ["src/reverse/http.rs InnerHttpOper, deal_match_location, process", "src/reverse/location.rs Hash, PartialEq, clone_only_hash"]}
{"id": "C136", "title": "Every backend gets the whole body", "statement": "Every backend that is given a request is given its whole body. Proved for the first backend that takes it. False of the code for the backends of later try paths: they are given an empty body.", "quantifier": "all sites, requests, bodies and backends", "why_tests_cant": "All try path recursions and backend behaviours.", "anchors": ["src/reverse/http.rs deal_match_location", "src/reverse/location.rs deal_client"]}
{"id": "C137", "title": "The method of a location restricts it", "statement": "A location with a method serves only requests of that method. False of the code: the setting is never looked at, only the method inside the rule is; the location serves every request its rule holds of.", "quantifier": "all configurations and requests", "why_tests_cant": "All requests.", "anchors": ["src/reverse/location.rs LocationConfig, is_match_rule"]}
{"id": "C138", "title": "Sets of methods and schemes survive display and parse", "statement": "The methods and schemes of a rule are read as they are written, each once, and a set that is shown (as /now does) and read again is the same set. Reading is proved; the round trip is proved for at most one element. False of the code for every larger set: the names are written without a blank, so at most one name is read back.", "quantifier": "all sets of methods or schemes and all orders they are written in", "why_tests_cant": "All sets; the order of a HashSet differs from run to run.", "anchors": ["src/reverse/matcher.rs MatchMethod, MatchScheme"]}
{"id": "C139", "title": "try_paths is read as written and survives display", "statement": "The paths and the status of try_paths are the ones that are written, 404 if there is none; a status that is not a valid status is reported; what is shown can be read again. Reading is proved. False of the code: an invalid status is silently replaced by 404, and what is shown never reads back the same, because the status is shown without its = and becomes a path.", "quantifier": "all texts made of bare or quoted words, all paths and statuses", "why_tests_cant": "All lists of words and statuses.", "anchors": ["src/reverse/try_paths.rs TryPathsConfig", "src/helper.rs split_by_whitespace"]}
{"id": "C140", "title": "A try path leads to the configured path", "statement": "A try path without blanks leads to that text with its placeholders filled in; one made of a regular expression, a text and replacements leads to the text with the replacements made, and to the text itself where the expression does not match. A configured path with a blank in it leads to that path. The last is false of the code: its first word is taken for a regular expression and the empty path is tried.", "quantifier": "all requests, texts, regular expressions, earlier calls and threads", "why_tests_cant": "All texts and requests.", "anchors": ["src/helper.rs format_req_may_regex, inner_oper_regex", "src/reverse/http.rs deal_match_location"]}
{"id": "C141", "title": "Cached patterns and expressions give the same answers", "statement": "Formatting a request, compiling a configured expression and keeping a static text give the same result whatever was asked before by whichever thread; nothing is remembered twice and nothing but what was asked for is remembered.", "quantifier": "all sequences of calls of all threads", "why_tests_cant": "All histories and interleavings of threads.", "anchors": ["src/helper.rs format_req, try_cache_regex, get_static_str"]}
{"id": "C142", "title": "A static response is the configured text", "statement": "A location with a static response answers 200 with the configured text, its placeholders filled in; text with its special characters escaped is answered as it is. Proved whenever the text can be formatted; a format the encoder reports an error for ends the task without an answer.", "quantifier": "all texts, requests and earlier calls", "why_tests_cant": "All texts and histories.", "anchors": ["src/plugins/static_response.rs StaticResponse", "src/helper.rs format_req, get_static_str"]}
{"id": "C143", "title": "Kept connections are found by equal locations", "statement": "The comparison of locations that kept backend connections are found by is an equality, equal locations have equal hashes, what is kept compares as the location does, and two locations that share a connection accept the same requests. Proved; that they also have the same backends is false of the code (only the rule, up_name and method are compared).", "quantifier": "all locations and requests", "why_tests_cant": "All locations.", "anchors": ["src/reverse/location.rs Hash, PartialEq, clone_only_hash", "src/reverse/matcher.rs Matcher"]}
{"id": "C144", "title": "An accept error does not close the port", "statement": "If accepting a connection at a port fails, connections that come to the port later are still accepted. Proved for the ports of the http and stream sections, where errors have no effect at all; false of the code for the other ports (proxy, tunnel, mapping): after one error nothing more is accepted there, until a connection at another port or a datagram happens to end the round.", "quantifier": "all histories of connections, accept errors, datagrams and stops", "why_tests_cant": "All schedules of connections and errors.", "anchors": ["src/wmcore.rs WMCore::run_server, tcp_listen_work, multi_tcp_listen_work"]}
{"id": "C145", "title": "A reload can open addresses the running generations hold", "statement": "An address can be opened exactly when the machine has it and no foreign socket is in the way; the sockets that earlier generations of the same user opened never are. So any number of generations, each with any addresses, start one after the other.", "quantifier": "all socket tables, addresses and sequences of generations", "why_tests_cant": "All histories of reloads and all states of the machine's sockets.", "anchors": ["src/helper.rs Helper::bind"]}
{"id": "C146", "title": "A second server on the same addresses is refused", "statement": "Starting a server while another one holds one of its addresses is refused. Proved for servers of different users; false of the code for the same user: the second one always starts, and the system gives new connections to either.", "quantifier": "all socket tables and addresses", "why_tests_cant": "All states of the machine's sockets.", "anchors": ["src/helper.rs Helper::bind"]}
{"id": "C147", "title": "A name with several addresses is listened on if one can be", "statement": "Binding a name that stands for several addresses takes the first that can be opened and listened on. Proved if all before it can be opened; false of the code otherwise: if the first cannot be opened no other is tried.", "quantifier": "all lists of addresses and socket tables", "why_tests_cant": "All lists and socket tables.", "anchors": ["src/helper.rs Helper::bind"]}
{"id": "C148", "title": "UDP stream servers listen on IPv4 and IPv6", "statement": "A stream server in udp mode listens on its addresses. Proved for IPv4; false of the code for IPv6: the socket made is always an IPv4 one, so the address is not opened and the whole server does not start.", "quantifier": "all stream sections and socket tables", "why_tests_cant": "All configurations.", "anchors": ["src/helper.rs Helper::bind_upd", "src/reverse/stream.rs StreamConfig::bind"]}
{"id": "C149", "title": "An active check counts what its request met", "statement": "A check counts a success exactly when the backend answered within the time limit and, checked by http, not with a server error; and a backend is down exactly when the results counted so far, of checks and of forwarding together, say so.", "quantifier": "all interleavings of checks, answers, forwarded requests and other backends", "why_tests_cant": "All interleavings of checks and traffic.", "anchors": ["src/check/active.rs ActiveHealth::do_check, check_by_http, check_by_tcp", "src/check/health.rs"]}
{"id": "C150", "title": "A backend that fails its checks is taken out", "statement": "A backend that fails its active checks is taken out of service, and is put back after enough successes. Proved when nothing else is counted for it; false of the code with traffic: a successful connection of a forwarded request between two failed checks resets the count, so a backend whose every check fails stays in service.", "quantifier": "all interleavings of checks and forwarded requests", "why_tests_cant": "All interleavings.", "anchors": ["src/check/active.rs ActiveHealth::do_check", "src/check/health.rs add_fall_down, add_rise_up"]}
{"id": "C151", "title": "A tcp check passes if a TCP connection can be made", "statement": "A check with the method tcp tells whether a TCP connection to the backend can be made. False of the code: it sends an HTTP request, fails without an HTTP answer, and passes on a server error.", "quantifier": "all backends, answers and histories", "why_tests_cant": "All behaviours of backends.", "anchors": ["src/check/active.rs ActiveHealth::check_by_tcp"]}
{"id": "C152", "title": "A UDP association lives as long as its control connection", "statement": "While the control connection of a SOCKS5 UDP association is open every datagram of the client is sent to its target and every answer to the client, whatever the client writes on the control connection; when it is closed the association ends as soon as both directions look at their channel, and nothing is relayed afterwards. Proved for whole, well-formed datagrams to reachable targets; false of the code otherwise: after one fragment nothing of the client is sent on any more while the control connection stays open, and a request for an IPv6 target ends the association. The client is told where its datagrams are taken: true of IPv4; for an IPv6 udp_bind the address told is not the one of the socket.", "quantifier": "all interleavings of datagrams, control bytes and the end of the control connection", "why_tests_cant": "All interleavings.", "anchors": ["src/proxy/socks5.rs udp_transfer, handle_udp_request, handle_udp_response"]}
{"id": "C153", "title": "The configured headers are sent with a file", "statement": "Every answer for an existing file, whether the whole file, a part, not modified or an unsatisfiable range, carries the configured max-age and no Cache-Control otherwise, the cross-origin headers exactly when they are configured, the time of the last change when it is known, and an entity tag that two versions share only if they agree in length and second of change. False of the code for errors: they carry none of the headers.", "quantifier": "all configurations, file trees, files and requests, conditional or not", "why_tests_cant": "All combinations of conditional headers and outcomes.", "anchors": ["src/reverse/file_server.rs deal_request, set_headers"]}
{"id": "C154", "title": "A resumed download never mixes versions", "statement": "A request for a part with If-Range gets the part exactly when the validator is the current entity tag or the time of the last change, and the whole current file with status 200 and without Content-Range otherwise. Proved for files with a known time of change; a file whose time is unknown is resumed by its tag alone, one of the first second of 1970 not by its date. A part the file cannot be positioned at fails the request.", "quantifier": "all files, parts inside the file and validators", "why_tests_cant": "All validators and versions.", "anchors": ["src/reverse/file_server.rs if_range handling"]}
{"id": "C155", "title": "Without a root the working directory is served", "statement": "A file server configured without a root, or with an empty one, answers every request as the server whose root is the working directory.", "quantifier": "all configurations, file trees and requests", "why_tests_cant": "All requests.", "anchors": ["src/reverse/file_server.rs deal_request"]}
{"id": "C156", "title": "An encoded path reaches the file it names", "statement": "A request whose path is percent-encoded is answered like the request with the decoded path; a path that cannot be decoded is taken as it stands. Proved for paths whose prefix is written plainly; false of the code when the encoding touches the prefix: such a request is answered as if it were not below the prefix.", "quantifier": "all configurations, file trees, decodings and requests", "why_tests_cant": "All paths.", "anchors": ["src/reverse/file_server.rs deal_request"]}
{"id": "C157", "title": "A CONNECT tunnel carries exactly the two sides' bytes", "statement": "After CONNECT is answered 200 on a connection of the HTTP proxy the named target gets exactly the bytes the client sends after the request, in order, the client exactly those the target sends, until that side ends, and nobody else is connected to. Proved for a first request with the credentials and bytes sent after the answer; false of the code otherwise: bytes the client sends right behind the request are lost unless the HTTP library gives them back, a CONNECT that is not the first request of its connection is answered 200 and then nothing is carried, and a client that is asked for credentials cannot repeat its request on the connection.", "quantifier": "all connections of the HTTP proxy: requests, bytes of both sides, ends and errors in any order", "why_tests_cant": "All interleavings of the two directions and all positions of the request.", "anchors": ["src/proxy/http.rs HttpProxy::process, Operate::operate"]}
{"id": "C158", "title": "A client that names a TLS site is shown that site's certificate", "statement": "A TLS client that names a configured site, in any case of letters, is shown the certificate chain configured for it, valid for the name and signed with the site's key, and nobody is shown one that is not configured for a site; the only site answers every client. False of the code when a later site has the same name, also on another port (its certificate is shown instead), and for a client that names no server or another one when there is more than one site, even if only one has a certificate (it is shown none).", "quantifier": "all lists of sites, file contents and names of clients", "why_tests_cant": "All combinations of sites and names.", "anchors": ["src/reverse/http.rs HttpConfig::bind, load_certs, load_keys"]}
{"id": "C159", "title": "The http section starts exactly with usable certificates", "statement": "The http section starts exactly when every site with a certificate and a key has readable files, exactly one key and a certificate valid for its name; no site with an unusable pair is served in silence. False of the code for keys: only a key in the format RSA PRIVATE KEY is found, so a PKCS 8 or EC key stops the start of all sites, and so does a second key in the file.", "quantifier": "all lists of sites and file contents", "why_tests_cant": "All file contents.", "anchors": ["src/reverse/http.rs HttpConfig::bind, load_certs, load_keys"]}
{"id": "C160", "title": "The end of a tunnelled connection reaches the other side", "statement": "When one end of a tunnelled connection ends, for whatever reason, the other end of the tunnel is told and ends too, after the bytes sent before. False of the code for the ends run by the tunnelled proxy and by HTTP visitors: shutting such a stream down or dropping it sends nothing, so the connection at the other side of the tunnel stays open until its own socket or the whole tunnel ends.", "quantifier": "all histories of writes, flushes, shutdowns, drops and reads at both ends", "why_tests_cant": "All interleavings of the two ends.", "anchors": ["src/streams/virtual_stream.rs poll_shutdown, poll_write, poll_flush", "src/streams/trans_stream.rs copy_wait", "src/trans/http.rs process", "src/streams/center_server.rs inner_serve"]}
{"id": "C161", "title": "The header rules of a proxy mapping are applied", "statement": "On every connection a visitor makes through a proxy mapping, each request the proxy sends to a target carries the visitor's headers changed by the mapping's request rules, in their order, and each answer of a target reaches the visitor with its status and its headers changed by the response rules; the proxy's own answers (200 to CONNECT, 407) are no one else's. The target of a request and its credentials are those of the request as the rules leave it. Only the Proxy-Authorization lines may be taken away besides.", "quantifier": "all mappings, credentials, connections and requests", "why_tests_cant": "All combinations of rules and requests.", "anchors": ["src/proxy/http.rs Operate::operate, deal_request, deal_response", "src/streams/center_client.rs inner_serve", "src/helper.rs rewrite_request, rewrite_response"]}
{"id": "C162", "title": "A chain of nodes carries a tunnel unchanged", "statement": "When servers with upper servers pass a tunnel on, through any number of nodes, each end receives the bytes the other sent, in order and none twice, at every moment a beginning of them; and when nothing is left to do, and no node broke, all of them, and the end of the stream exactly if the other side ended. So the server decodes exactly the frames the client sent. Nodes and receivers always reach that point after finitely many steps.", "quantifier": "all chains, sizes of connections, data, schedules and moments at which nodes break", "why_tests_cant": "Every interleaving of reads and writes in every node, any number of nodes.", "anchors": ["src/streams/center_trans.rs CenterTrans::serve", "src/wmcore.rs deal_center_stream"]}
{"id": "C163", "title": "A node that breaks ends the tunnel at both ends", "statement": "When a node on the way fails, both the client and the server come to read the end of their connection (so the client can connect again), whatever was under way; and neither reads an end while all nodes work and the other side has not ended.", "quantifier": "all chains, schedules and failures", "why_tests_cant": "Any node, any moment, any amount of data under way in both directions.", "anchors": ["src/streams/center_trans.rs CenterTrans::serve"]}
{"id": "C164", "title": "The server a tunnel goes to proves its name", "statement": "With TLS to the server configured, tunnels are made or passed on only over TLS to a server that proved the configured domain, or the built-in name when none is configured; otherwise the connection is dropped.", "quantifier": "all configurations, names, files and servers", "why_tests_cant": "All combinations of files, names and handshake outcomes.", "anchors": ["src/streams/center_trans.rs CenterTrans::serve", "src/streams/center_client.rs inner_connect", "src/option.rs get_tls_request, bind"]}
{"id": "C165", "title": "A listing shows the entries that are not hidden, once each, folders first, with their sizes", "statement": "The page for a directory has one line for every entry of the directory whose path holds no hidden pattern, and no other line; no entry has two lines; all folders come before all files; a folder is shown as a folder, a file with its length as a whole number of the largest of the units B, K, M, G that fits, rounded down; the title is the path asked for.", "quantifier": "all directory trees, configurations and requests answered with a listing; files of any length", "why_tests_cant": "All directories, names, lengths and configurations.", "anchors": ["src/plugins/file_server.rs FileServer::deal_request", "src/plugins/mod.rs calc_file_size"]}
{"id": "C166", "title": "A reader of a listing finds the names of the directory and nothing else", "statement": "Whatever the entries of a directory are called, the page can be read as its lines in one way only, and the names read are the names of the entries; a name is never taken for markup of the page.", "quantifier": "all directory trees, configurations and requests answered with a listing; all readings of the page as lines", "why_tests_cant": "All names, and all readings of a page.", "anchors": ["src/plugins/file_server.rs FileServer::deal_request"]}
{"id": "C167", "title": "A timeout written as a number is that many seconds, in both file formats", "statement": "A timeout of the http section written as a whole number means that many seconds whether the configuration is a yaml or a toml file, with or without quotes; a text means the duration it spells in both; a timeout that is not written is not set; negative numbers, fractions, truth values, lists and tables are refused.", "quantifier": "all sections, numbers and texts, both formats", "why_tests_cant": "All numbers and texts, all eight timeouts, both formats.", "anchors": ["src/config/mod.rs DisplayFromStrOrNumber", "src/reverse/common.rs CommonConfig", "src/arg.rs read_config_from_path"]}
{"id": "C168", "title": "Every key of a configuration file takes effect or is refused", "statement": "When a configuration file is accepted, what is written for each key the program knows is what is taken, at every place of the file, and nothing is taken that is not written; a key the program does not know, anywhere in the file, makes the file refused.", "quantifier": "all files, places, keys and values", "why_tests_cant": "All trees of keys and values, every place in them.", "anchors": ["src/option.rs ConfigOption, ProxyConfig", "src/reverse/http.rs HttpConfig", "src/reverse/server.rs ServerConfig", "src/reverse/location.rs LocationConfig", "src/reverse/common.rs CommonConfig", "src/plugins/file_server.rs FileServer", "src/arg.rs read_config_from_path"]}
{"id": "C169", "title": "A server is accepted with just its address", "statement": "A file is accepted exactly if each value at a known place has the right form and no required key is missing; of a server of the http or stream section only an address to listen on is required, in clear (bind_addr) or with TLS (bind_ssl), and the files that come with the program are accepted.", "quantifier": "all files and servers", "why_tests_cant": "All trees of keys and values.", "anchors": ["src/reverse/server.rs ServerConfig", "src/reverse/stream.rs StreamConfig", "src/option.rs ConfigOption", "config/reverse.toml"]}
{"id": "C170", "title": "UDP servers forward to the upstream they name", "statement": "The datagrams of a new client of a UDP server go to an address the upstream of the server's up_name gives at that moment, the same one a TCP server with these settings would use: the server's own upstream before one of the section with the same name, the upstream of proxy_url when that is set, the first one when no name is given. When there is none, that datagram is lost and nothing else happens.", "quantifier": "all lists of upstreams, names and answers of the upstreams", "why_tests_cant": "Every combination of names and of own and inherited upstreams.", "anchors": ["src/reverse/stream.rs StreamUdp::process_data", "src/reverse/server.rs get_addr_domain", "src/reverse/stream.rs StreamConfig::copy_to_child"]}
{"id": "C171", "title": "Every option of the command line sets the setting it names", "statement": "An accepted command line is a command followed by options of that command, each written by its name or its letter and, unless it is a switch, its value; each setting is what is written for its option, or the documented default when nothing is; the order of different options makes no difference. An unknown option, a second occurrence of an option that takes one value, a missing value, a missing required option, and a stray word are refused.", "quantifier": "all command lines, all orders of their options, all values", "why_tests_cant": "All words, orders and combinations of options of nine commands.", "anchors": ["src/arg.rs parse_command, Shared, RunConfig, CheckConfig, StopConfig, ReloadConfig, FileServerConfig, ReverseProxyConfig, WsProxyConfig", "src/option.rs ProxyConfig"]}
{"id": "C172", "title": "A bad value on the command line is refused with a message", "statement": "Whatever is given as the value of an option, the program either takes it or refuses the command line; it never crashes while reading it.", "quantifier": "all command lines and values", "why_tests_cant": "All values of all options.", "anchors": ["src/arg.rs parse_command", "src/mapping/config.rs MappingConfig::from_str", "src/config/wrap.rs WrapVecAddr::from_str", "src/config/header.rs ConfigHeader::from_str", "src/config/duration.rs ConfigDuration::from_str"]}
{"id": "C173", "title": "Loading the configuration in force once more changes nothing", "statement": "The configuration that /now shows is the one in force, with everything handed down to each location. A service that is started with it gives every location the same settings, log formats, log names, named rules, rule, root, file server, backends and header rules.", "quantifier": "all configurations, all servers and locations", "why_tests_cant": "All combinations of settings on three levels, all lists and maps.", "anchors": ["src/option.rs ConfigOption::after_load_option", "src/reverse/http.rs HttpConfig::after_load_option, copy_to_child", "src/reverse/server.rs ServerConfig::copy_to_child", "src/reverse/common.rs CommonConfig::copy_from_parent"]}
{"id": "C174", "title": "What /now shows can be used as a configuration file", "statement": "The text of the configuration that /now shows is accepted as a configuration file and describes the same configuration.", "quantifier": "all configurations", "why_tests_cant": "All configurations, all values of all settings.", "anchors": ["src/control/server.rs inner_operate", "src/option.rs ConfigOption, ProxyConfig", "src/reverse/http.rs HttpConfig", "src/reverse/server.rs ServerConfig", "src/reverse/location.rs LocationConfig", "src/reverse/common.rs CommonConfig", "src/config/mod.rs DisplayFromStrOrNumber"]}
{"id": "C175", "title": "A proxy section built in code says what the calls said", "statement": "Whatever calls are made on the builder of a proxy section, in whatever order, each setting is what the last call for it said, or its default; flags are added up since the last call that set them; mappings are kept in order. Started, the proxy listens exactly where the calls said. Every setting has a call.", "quantifier": "all sequences of builder calls, all addresses, certificates and keys", "why_tests_cant": "All orders and repetitions of calls.", "anchors": ["src/option.rs Builder, ProxyConfig::default, ConfigOption::new_by_proxy, is_empty_listen, bind, bind_map", "src/flag.rs Flag"]}
{"id": "C176", "title": "A bridge is read and written like the stream inside it", "statement": "Bytes put into the read buffer of a bridge and bytes of its stream are read in order, none lost or twice; a read with room says the end only if the stream has ended; writes reach the stream as they are. What was put for reading and not read goes into the tunnel first when the bridge is started; what was put for writing goes to the stream.", "quantifier": "all sequences of calls, all answers of the stream, all histories after the start", "why_tests_cant": "All interleavings of calls and all sizes of reads.", "anchors": ["src/streams/trans_stream.rs TransStream::reader_mut, write_mut, stream_read, poll_read, poll_write, copy_wait"]}
{"id": "C177", "title": "Answers name the proxy as their server and keep everything else", "statement": "Every answer of a reverse server, an http mapping and the control address has exactly one server header; it says wmproxy, or what the header rules say of it. Status and all other headers are those that were made. A timeout of a backend is answered with 408, any other error with 500.", "quantifier": "all answers, all lists of headers, all header rules, all errors", "why_tests_cant": "All headers of backends, including several server headers and any spelling of the name, and all rules.", "anchors": ["src/reverse/http.rs HttpConfig::operate", "src/trans/http.rs Operate::operate", "src/control/server.rs Operate::operate"]}
{"id": "C178", "title": "The ports a command line names are the ports that are opened", "statement": "A proxy command line that is accepted and starts listens exactly at the addresses its options name, each for its purpose: --bind for clients, --center-addr for tunnels, the map options for visitors; with TLS for tunnels exactly if --tc is there with usable files, and with a tunnel exactly if --server and --bind are there. file-server listens at --listen without TLS and at --listen-ssl with it; reverse-proxy and ws-proxy at --from. The documented lines open the documented ports. The access log of the servers of these three commands is the one --access-log names, and without the option there is none.", "quantifier": "all lists of words, all files, all answers of the operating system", "why_tests_cant": "All spellings and orders of options.", "anchors": ["src/arg.rs parse_env, ProxyConfig", "src/option.rs ProxyConfig", "src/wmcore.rs WMCore::ready_serve", "src/reverse/http.rs HttpConfig::bind", "src/reverse/stream.rs StreamConfig::bind", "README.md"]}
{"id": "C179", "title": "Files of common kinds are sent with the type of their kind", "statement": "A file whose name ends in one of the usual extensions is sent with the media type of that kind, unless the configuration gives another type, and nothing is sent with a type that is not one.", "quantifier": "all files, all names and directories, all requests, all configurations of the file server", "why_tests_cant": "All names of files with all extensions.", "anchors": ["src/plugins/file_server.rs DEFAULT_MIMETYPE, get_mimetype, deal_request"]}
{"id": "C180", "title": "What is over is forgotten", "statement": "What the program keeps is bounded by what is going on and by its configuration, not by how long it has run: both ends of a tunnel forget a stream that has ended, the record of an address goes away when it has expired, and a rate limit zone never knows more clients than its configured number.", "quantifier": "all runs of both ends of a tunnel, all histories of connections, all requests", "why_tests_cant": "All lengths of runs.", "anchors": ["src/streams/center_server.rs inner_serve", "src/streams/center_client.rs inner_serve", "src/check/health.rs HealthCheck", "src/data/limit_req_data.rs LimitReqData::inner_recv_new_req"]}
{"id": "C181", "title": "A slow receiver slows its sender", "statement": "What the proxy holds for a receiver that does not take it is bounded: in each direction of a tunnel, of a stream in it and of the bridge between a connection and a stream, nothing more is taken from the sender while a fixed amount waits. A peer that was refused cannot make the server hold what it sends.", "quantifier": "all runs of both ends of a tunnel, of streams and of bridges, all data", "why_tests_cant": "All lengths of runs, all speeds of senders and receivers.", "anchors": ["src/streams/center_server.rs inner_serve", "src/streams/center_client.rs inner_serve", "src/streams/virtual_stream.rs poll_read, poll_write", "src/streams/trans_stream.rs inner_copy_wait"]}
{"id": "C182", "title": "What an instance is for follows from its configuration", "statement": "A started instance that names an upper server passes tunnels on to it and sends its own clients through its tunnel, under the numbers 1, 3, 5, ... of its own server number; it never serves a tunnel or a client itself. One that names none passes nothing on, serves its clients itself and makes every connection at its tunnel port a tunnel unless TLS is on and the handshake fails. No client is closed unserved. A port for visitors that is open serves them.", "quantifier": "all configurations of the proxy section that start, all histories of connections, handshakes and stops", "why_tests_cant": "All histories of the accept loop.", "anchors": ["src/wmcore.rs deal_center_stream, deal_client_stream, server_new_http, run_serve", "src/option.rs bind", "src/streams/center_client.rs calc_next_id, deal_new_stream"]}
{"id": "C183", "title": "The tunnel protocol has one fixed format", "statement": "Every message that the format can carry is put on the wire as: three bytes for the length of its content, its code, no flags, three bytes for the number of the stream and four for its server, and the content, in which texts have one byte for their length and lists two for their number. The receiver takes a message off its buffer exactly when one starts there, and it is the one that is written there. It takes nothing else for a message.", "quantifier": "all messages, all bytes in the receive buffer", "why_tests_cant": "All bytes a peer of any version may send.", "anchors": ["src/prot/frame.rs", "src/prot/create.rs", "src/prot/close.rs", "src/prot/data.rs", "src/prot/mapping.rs", "src/prot/token.rs", "src/prot/kind.rs", "src/config/header.rs HeaderOper", "src/helper.rs Helper::decode_frame"]}
{"id": "C184", "title": "A file-server command serves the directory it names", "statement": "After a file-server command line is accepted, at every port of --listen and --listen-ssl a GET of a path is answered with what is at that path below the directory of --root, or the current directory if none is named: the content of a file; for a directory its index.html, else its index.htm, else the list of its entries; 404 if nothing is there; the text of --robots for /robots.txt. Nothing outside of the directory is shown. No files are served at other ports. False of the code: with --path404 what is missing is answered with 200 and the page, which is not looked for in the directory; a path with two dots may lead out of the directory (C37).", "quantifier": "all command lines in the grammar of C171, all directory trees, all ports and requests", "why_tests_cant": "All command lines, trees and paths.", "anchors": ["src/arg.rs parse_env", "src/reverse/server.rs copy_to_child", "src/reverse/http.rs after_load_option, inner_operate_by_http, deal_match_location", "src/reverse/location.rs deal_request", "src/plugins/file_server.rs deal_request"]}
{"id": "C185", "title": "A reverse-proxy command passes every request on to the address it names", "statement": "After a reverse-proxy command line is accepted, at every port of --from each request of each connection of a client is passed on to the address of --to, over TLS exactly with --tls, and the client is told what came back; at no other port is anything passed on. Proved for all moments at which the latest result for the address is not between thirty and sixty seconds old (C123). False of the code: once the backend has closed the connection that was kept for the client, its next request is not passed on, and answered with 404. The Host of a request depends on whether the connection is new.", "quantifier": "all command lines in the grammar of C171, all ports, all lists of requests of a connection, all health records and answers of the backend", "why_tests_cant": "All command lines, sequences of requests and behaviours of the backend.", "anchors": ["src/arg.rs parse_env", "src/reverse/http.rs after_load_option, inner_operate_by_http, deal_match_location", "src/reverse/location.rs deal_request, deal_reverse_proxy, deal_client", "src/reverse/upstream.rs get_server_addr", "src/reverse/reverse_helper.rs get_upstream_addr"]}
{"id": "C186", "title": "A ws-proxy command connects its clients to the address it names", "statement": "After a ws-proxy command line is accepted, every connection at a port of --from is connected to the address of --to, converted as --mode says, with the name of --domain; a connection at another port is not connected. Proved for all moments at which the latest result for the address is not between thirty and sixty seconds old (C123). False of the code for a mode that is accepted though it is not in lower case: nothing is converted (C120).", "quantifier": "all command lines in the grammar of C171, all ports, all health records", "why_tests_cant": "All command lines and histories of results.", "anchors": ["src/arg.rs parse_env", "src/reverse/stream.rs process, copy_to_child", "src/reverse/server.rs get_addr_domain", "src/reverse/upstream.rs get_server_addr"]}
{"id": "C187", "title": "A proxy command with a user and a password serves nobody without them", "statement": "After a proxy command line with --user and --pass is accepted and its ports are open, nothing is passed on for a client that does not name both: over HTTP in a header of this or an earlier request of the connection, over SOCKS5 in the exchange the connection starts with. A SOCKS5 client that names them is served, however its bytes are cut. A protocol that --flag leaves out is not served. A UDP association is opened at the address of --udp-bind, and without it none is. False of the code: with --server no client is asked; with only one of --user and --pass no client is asked; over HTTP the target is connected to first (C36).", "quantifier": "all command lines in the grammar of C171, all connections of clients, all ways their bytes are cut", "why_tests_cant": "All command lines, byte sequences and segmentations.", "anchors": ["src/arg.rs parse_env", "src/wmcore.rs deal_client_stream", "src/proxy/server.rs deal_proxy, process_http, process_socks5", "src/proxy/http.rs process, err_server_status, check_basic_auth", "src/proxy/socks5.rs process"]}
{"id": "C188", "title": "A client passed on through a tunnel is served under the settings of the other side", "statement": "The service the other side of a tunnel runs for a stream reads an initial part of what the client sent, and the client gets back an initial part of what that service wrote. If the other side was started with --user and --pass, nothing is passed on for the client unless the client itself names them; that its own side named them when the tunnel was made does not count. A protocol that --flag of the other side leaves out is not served. A SOCKS5 client that names them and asks for a target the other side can reach is connected to it as soon as its words have arrived. The answers may lose pieces when the client falls behind (C11), and over HTTP the target is connected to first (C36).", "quantifier": "all command lines of the other side in the grammar of C171, all histories of the two sides of a tunnel, all streams opened before they are used, all ways the bytes are cut", "why_tests_cant": "All interleavings of two processes, byte sequences and segmentations.", "anchors": ["src/streams/center_server.rs inner_serve", "src/streams/center_client.rs inner_serve, deal_new_stream", "src/proxy/server.rs deal_proxy", "src/proxy/http.rs process", "src/proxy/socks5.rs process"]}
{"id": "C189", "title": "When a tunnel comes to rest, everything has arrived", "statement": "What a client contacts through a tunnel is, at any time, what the first of the requests of visitors ask for: each request leads to one contact, in the order of the requests, with the address of the last mapping whose domain or name was asked for, or with the proxy of the client if that mapping has the mode proxy. When nothing is queued or on its way from the server to the client, every request has had its contact and the client has seen every byte visitors sent on each stream; in the other direction likewise. A local service that has emptied its queue has then received exactly what its visitor sent, if the stream number had one visitor, requests left before data and the client dropped nothing (C11); a visitor that has emptied its queue has received exactly what the local service sent. As long as the connection is neither closed nor broken, the two ends can from any state go on to such a rest, with nobody asking for or sending anything more: no state of a tunnel loses a request or a byte on its way for good, and if local services and visitors take what comes, each request reaches the service it is for with all the bytes of its visitor, and each visitor gets all the bytes of its service.", "quantifier": "all histories of a client and a server with the same credentials; for what has arrived, those that end with nothing on its way in the direction in question; for coming to rest, those without a close or failure of the connection", "why_tests_cant": "All interleavings of two processes, byte sequences and segmentations.", "anchors": ["src/streams/center_server.rs inner_serve, server_new_http, server_new_tcp, server_new_prxoy", "src/streams/center_client.rs inner_serve"]}
{"id": "C190", "title": "An access line tells who asked for what and how it was answered", "statement": "With the format main, which every http section has, the line of a request names the time, the client, the URL, path, query and host asked for, the referer, the user agent and the cookie, each request on a line of its own if no value has an end of line in it. Two lines of the same time that are the same are of the same client and target if these have no blanks, and of the same referer, user agent and cookie if these have none. False of the code for the answer: the line is written before there is one, so the status is always ???, that of the backend is empty and the level is always INFO; with any format two answers cannot be told apart. False of the code for values with blanks: a user agent can be chosen so that it looks like a cookie.", "quantifier": "all requests, answers and times; all texts of the values", "why_tests_cant": "All texts a client can send.", "anchors": ["src/helper.rs format_req, log_acess, try_init_log", "src/log/proxy_record.rs new_req", "src/log/pattern/mod.rs FormattedChunk::encode", "src/reverse/http.rs after_load_option", "src/reverse/location.rs deal_request"]}
{"id": "C191", "title": "A rate limit slows down the answers it is configured for", "statement": "The answers of a location are sent no faster than the rate limit of the nearest of the location, its server and the http section that sets one, and in pieces of the size set likewise. False of the code for everything but lists of directories: files, texts, error pages and answers of backends are sent without limit. False of the code for lists too if the location names its own root or its server names none: then only a limit written below the file server itself counts. Proved exactly which answers get which limit.", "quantifier": "all configurations of an http section, all locations, all requests and answers", "why_tests_cant": "All combinations of settings at three levels and all requests.", "anchors": ["src/reverse/common.rs get_rate_limit, copy_from_parent", "src/reverse/server.rs copy_to_child", "src/plugins/file_server.rs deal_request, set_common", "src/reverse/location.rs deal_request"]}
{"id": "C192", "title": "A busy port does not keep the others of its section waiting", "statement": "With several ports in an http or stream section, each connection is given to the section once, as one of the port it reached and in the order of its port, and after at most as many rounds of the loop as there were connections waiting at the ports of its section. Each UDP port behaves as if it were alone: it sends to its clients, in order, what its own sessions received. False of the code: in every round the ports are asked from the first on, so while connections keep coming to the first port, or accept keeps failing there, none of another port is served; while datagrams keep coming to the first UDP port, nothing is read at the others and not even their waiting replies are sent. Proved: the order, the independence, and that bound with the connections that come to the ports before counted in, in rounds without an accept error.", "quantifier": "all numbers of ports, all histories of connections, datagrams, accept errors and steps of sessions", "why_tests_cant": "All interleavings of arrivals at several ports.", "anchors": ["src/wmcore.rs multi_tcp_listen_work, multi_udp_listen_work, run_serve", "src/reverse/stream.rs StreamUdp::poll_next, process_data"]}
