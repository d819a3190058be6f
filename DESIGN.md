# Formal model of wmproxy in Rocq (Coq 8.16)

Source of truth: `/repo` at the pinned commit, read as text.  Nothing is run;
each definition of the model cites the file and lines it models.

## Conventions

* Bytes are `N` below 256, byte strings `list N`, Rust `String`s are either their
  UTF-8 bytes (network code) or their list of Unicode scalar values (text code).
* Fixed-width casts (`as u8`, `as u16`, u24, u32, u64) are written out as `mod 2^k`
  wherever the property concerns sizes.
* `Result` is data, a panic (`unwrap`, index out of range, `todo!()`, arithmetic
  underflow, reading past the end of a `Buf`) is the explicit outcome `Panic`.
* `&mut` becomes a returned value, loops become structural recursion or folds.
* Asynchronous code (`tokio::select!`, channels, polling) becomes a step function
  over explicit events; the scheduler is the universally quantified event list.
  An event that is not possible in a state leaves the state as it is, so that every
  event list is a history.
* HashMaps are association lists; iteration order is quantified where it matters.
* Times are `N` (nanoseconds or abstract ticks); the clock is an input.
* External code (regex engine, DNS, file system, TLS, HTTP parser of `wenmeng`/`webparse`)
  is an explicit parameter of the model, recorded in the trusted base.

Files come in groups: `XModel.v` (definitions only), `XSpec.v` (independent
specification where the statement needs one), `XProofs.v` (lemmas), `XProps.v`
(theorems, examples that the hypotheses are met, `Print Assumptions`).  Short proofs stay
in `XProps.v`, the others are lemmas of `XProofs.v`.

Theorem suffixes: `_partial` = only part of the English property; `_refuted` = the
full English property is false of the unchanged code.  A `_refuted` theorem is either a
concrete reachable witness or, where possible, a statement about all inputs or histories
saying what the code does instead.  `properties.jsonl` keeps the property a user relies
on, also where it is refuted; the manifest then says `partial`.

## Plan per property

| Property | Modelled | Proof |
|---|---|---|
| C01 round trip | all five frame encoders/parsers, header, decode_frame | induction on lists, arithmetic lemmas for u16/u24/u32 |
| C02 segmentation | receive buffer + decode loop over arbitrary reads | induction on reads with invariant buffer = undecoded suffix |
| C03 isolation | decode_frame on arbitrary bytes | refuted by witness; partial for data frames and for frames whose inner lengths fit |
| C04 no crash | same | refuted by witness (kind >= 5, empty create); partial for kinds 0,2,3,4 |
| C05 oversize | encoders | refuted by witnesses; partial: mapping frames leave buffer untouched |
| C06 ids | calc_next_id, sock_map, wire truncation | arithmetic mod 2^32; refuted for ids >= 2^24 on the wire |
| C07 auth | center server loop as step function over reads/writes | invariant over all event lists |
| C08 server dispatch | same | refinement to per-stream filter of the frame history |
| C09, C10, C11 client | center client loop with bounded channels | invariant; refuted for loss |
| C12, C13, C14 virtual stream | poll_read/poll_write as steps | invariant by induction on events; refuted for loss/duplication |
| C15, C16 bridge | inner_copy_wait as steps | invariant; refuted for flush |
| C17, C18, C19 limiter | InnerLimit, zones | refinement to a per-address counter spec; refuted witnesses |
| C20 health | HealthRecord machine | refinement to history-based spec |
| C21, C22 balancing | get_server_addr with the random draw as input | induction over members; refuted for weights |
| C23, C24 IP sets | IpGate/IpSets | bit-level spec via N.testbit / division |
| C25, C26 sizes, durations | Display/FromStr | round trip by decimal lemmas; refuted for durations; grammars of all texts (CxSpec) with an iff for the readers |
| C27 headers | rewrite_header on header lists | per-key spec; refuted for replace |
| C28 wildcard | is_match | sound w.r.t. inductive matching relation; refuted for patterns without star |
| C29-C32 routing | matcher, location choice, deny, try_paths, inheritance | case analysis and induction on remaining locations |
| C33-C35 SOCKS5 | negotiation over a byte buffer | case analysis; codec lemmas; refuted for crash |
| C36 HTTP proxy | check_basic_auth, operate | case analysis |
| C37-C40 file server | path computation, hide, range, etag | path component semantics; refuted witnesses; the Range header: exact grammar (RgSpec) |
| C41 UDP | StreamUdp tables | invariant |
| C42 control | ControlServer counter and channels | invariant |
| C43, C44 log patterns | parser and width writers | induction on text |
| C45 flags | Flag Display/FromStr | finite sweep over all sets |
| C46 listen | WrapVecAddr parsing | refuted for crash |
| C47 targets | get_health_check | NoDup + set equality by induction |
| C48 detection | hand-over buffer | case analysis |
| C49, C50 no stall | CsModel, CcModel | refuted by reachable states; the exact stall condition and that it is permanent, by invariant |
| C51 announced first | PollModel: the biased select, branch by branch, with the other tasks between any two steps | refuted by a schedule; partial for one thread by simulation |
| C52 reloaded limits | LimModel cache | case analysis; refuted |
| C53 avoids failed backends | HealthModel connect | induction over the resolved addresses |
| C54, C55, C57 settings round trip | ConfModel Display/FromStr | string lemmas; exact class of values that survive; grammars of every setting (CxSpec, GxSpec) shown equal to the parsers |
| C56 parsers do not crash | ConfModel | exact panic conditions by case analysis, also in terms of the grammars (CxSpec, GxSpec); refuted |
| C58 client address condition | RouteModel matcher | refuted for all requests |
| C59 stale kept connection | RouteModel cache | refuted; partial: not used again |
| C60, C61 header rules, roots | RouteModel, InhModel | refuted; partial |
| C62-C64 SOCKS5 data, UDP, segments | SocksModel | induction over segments; refuted witnesses |
| C65, C66 HTTP proxy targets, credentials | HttpProxyModel | first request proved, later ones refuted |
| C67-C72 file server | FileModel | exact panic condition; tree semantics of paths; refuted witnesses |
| C73-C76 UDP | UdpModel | invariants over event lists; refuted witnesses |
| C77-C80 log patterns | LogModel, LogSpec grammar and cells | parser and printer by induction on text; refuted witnesses |
| C81-C84 control | CtlModel | invariants over event lists; all-history refutations |
| C85, C86, C91 tunnel server and client start | CsModel, CcModel joined in TunServer/TunClient | both loops run against each other's bytes; invariants |
| C87, C88, C90 local connections | TunMore, CcCreate | trace invariants |
| C89, C93 bytes through the tunnel | TunFlow, VsModel, JoSpec (joint causal histories of client and server) | composition of the four loops' refinements; invariant: data of a stream leaves after its create frame |
| C92, C95 reconnection | ReModel | invariants across runs |
| C94 end of a tunnel | TunMore | trace invariant |
| C96, C97 HTTP through the tunnel | TransModel | induction over the requests of a connection |
| C98-C103 listening | BindModel | induction over servers and addresses; exact outcome |
| C104 independent stream connections | SqModel | the lock as a queue; refuted for all histories |
| C105 websocket upgrades | RouteModel on_open | case analysis, exact |
| C106 media types | FileModel | exact |
| C107-C109 accept loop | CoreModel | invariants over event lists; refuted schedules |
| C110-C112 start of the proxy section | CoreModel | case analysis, exact |
| C113, C114 progress, order of a tunnel end | PollModel | invariant and ranking; refuted state |
| C115 active checks | HcModel | invariant over turns |
| C116-C122 command line, supervision, exit status | ArgModel: parse_env and main, file system and serde as parameters | case analysis, induction over the children; refutations over all inputs |
| C123 reverse-proxy | ArgModel with RouteModel, HealthModel and TgtModel | invariant of health records over all histories; refutation for every address and draw |
| C124 pid file | ArgModel: event list | induction over events |
| C125-C126 where requests and stream connections go | TgtModel: choice among upstreams, URL rewriting; text forms, webparse and name resolution as parameters | case analysis against an independent meaning of names |
| C127 websocket relay | TgtModel: callbacks, two bounded channels, event list | invariant over all schedules |
| C128 time limits | TgtModel: settings to layers | case analysis |
| C129 silent backends | TgtModel: connect with a limit, over the HealthModel records | induction over addresses and attempts |
| C130 answers | TgtModel over RouteModel's operate | induction over the recursion |
| C131-C134 log files | LsModel: get_log_names and try_init_log over InhModel's inherited settings; opening of files and log4rs's name check as parameters | induction over the settings; refuted for all such configurations |
| C135, C136 requests of one connection | SiteModel over RouteModel's operate: owners of kept connections, bodies given | invariant over the recursion and the request sequence; refuted for all such sites |
| C137 method of a location | RouteModel | refuted for all such requests |
| C138-C139 texts of sets and try_paths | RwModel: parsers and Display; webparse's own parsers as parameters | induction over words; exact counterexamples for all sets and lists |
| C140-C142 rewriting, caches, static answers | RwModel: the three caches as state, regex crate and encoder as parameters; LogModel's encoder for C142_text | invariant over all call histories |
| C143 comparison of locations | RwModel: key_eqb, hash_input | case analysis; set reasoning |
| C144 accept errors | AcModel: one select! over CoreModel with branches switched off | induction over the events; errors at shared branches are stuttering steps |
| C145-C148 opening of sockets | SkModel: helper.rs bind and bind_upd over a table of sockets with Linux's rule for SO_REUSEPORT; listen and the address families as parameters | induction over addresses and generations; exact conditions |
| C149-C151 active checks | PbModel: do_check over HealthModel, what a request meets given with each check; PbSpec: when a check passes, which results were counted | invariant over all interleavings; HealthProofs' exact condition for being down |
| C152 UDP associations | AsModel: the three futures of udp_transfer, the signal and the sockets | monotonicity of ended futures; induction over the events |
| C153-C156 headers, If-Range, default root, encoded paths of the file server | FileModel as for C37-C40 | every answer for a file is after_file of a fresh response; header algebra |
| C157 CONNECT tunnels | CnModel: one connection of the HTTP proxy, max_req_num, the hand-over to copy_bidirectional; what into_io gives back and whether an error ends the connection are parameters | induction over the events of both directions |
| C158-C159 certificates of the http section | TlsModel: load_certs, load_keys and the loop of bind over PEM files as lists of sections; rustls' name table; validity of keys and names as parameters | exact reading of files; induction over the sites |
| C160 end of a tunnelled connection | VsModel: poll_shutdown and the drop of a virtual stream as events; both ends of one stream | data frames only, from the conservation of C14; the bridge runs on unless its own events stop it; the other direction from C13 and C15 |
| C161 header rules of a proxy mapping | PhModel: operate of the HTTP proxy with header lists and the rules of the mapping of the stream | the rules as an inductive relation; refinement to HttpProxyModel by erasing headers |
| C162 chain of nodes | MdModel: copy_bidirectional of every node with its buffer, the connections between the nodes with bounded room, both directions, any number of nodes; events are the scheduler | conservation of bytes by induction over the chain; a measure that every effective step lowers; frames by C02 |
| C163 broken node | MdModel: a node can break at any moment; both directions end | ends travel along the chain, by induction |
| C164 name of the server | MdModel: dialling with TLS and name; start of CoreModel | case analysis on top of C110 |
| C165 listing | PgModel: the text of the page on top of FileModel | the page is split into lines by induction over the links; the lines are compared with the entries of the directory |
| C166 names in a listing | the same page | unique reading by cutting at the first quote and less-than sign; a concrete name refutes the general claim |
| C167 timeouts as numbers | NuModel: values of a section, the visitor method each format calls, the two methods the code has | case analysis; reading of the eight names by induction |
| C168 keys of a file | FmModel: the structs read by serde as a table of fields, reading of a tree of keys and values | induction over types; what is taken is compared place by place; adding an unknown key changes nothing |
| C169 required keys | the same | acceptance characterised by all known places; missing bind_ssl refutes; the shipped reverse.toml as a concrete tree |
| C170 UDP upstream | TgtModel udp_target: the loop over the upstreams | induction over the list; compared with the TCP choice; witnesses |
| C171 options of the command line | OpModel: the tables of the nine commands, words cut into names and values, each field taken by its name and the word after it | acceptance characterised by rows of options (tiling of the words), both directions by induction; uniqueness of the reading; tables by computation |
| C172 bad values of options | the same | a crash can only come from the format of a value; witnesses for those that crash |
| C173 loading once more | NwModel load_http on top of InhModel; the configuration shown is the loaded one, loading it is load_http again | copying from a parent that was copied already changes no lookup; lists computed; witnesses by the lists |
| C174 /now as a file | NtModel: serialisation and reading of FmModel's tables with values, Display and FromStr of the earlier models for single values | induction over the type of the configuration gives an equivalence with the single values; single values by C23, C26, C45, C46, C54, C55, C57, C138, C139 |
| C175 builder | BuModel: all fields of ProxyConfig, one step for each builder method; started with CoreModel proxy_start | induction on the calls from the end; one bit of the flags at a time |
| C176 bridge as a stream | TsModel: the read buffer, poll_read, poll_write, both accessors; the start is VsModel t_init | conservation of bytes over every call; C15 for what follows the start |
| C177 server header | SvModel: the three operate functions around the answers of the handlers; rules as in RouteModel and ConfModel | filter lemmas on header lists; cases on the error |
| C178 ports of a command line | PlModel: the proxy section from OpModel's fields, started with CoreModel proxy_start; BindModel for the other commands | composition of C171, C110, C111, C98, C99, C102, C119, C120, C123 |
| C179 types of files | FileModel get_mimetype with the table DEFAULT_MIMETYPE; the spec lists the types with their extensions | lookup in the table per extension; composition with C11 for the answer |
| C180 what is over is forgotten | CsModel, CcModel, HealthModel and LimModel as they are; KpSpec says when a stream is over at either end and when a record has expired | the tables as folds over what was bound or noted, by induction on runs; runs with any number of streams that come and end; bound of a zone by induction on requests |
| C181 a slow receiver slows its sender | CsModel, CcModel and VsModel as they are; BpSpec gives the longest frame and what a peer may send | invariants over runs for the queues and the bytes not yet decoded; families of runs in which any amount is taken and nothing is passed on |
| C182 what an instance is for | CoreModel as it is: the start of the proxy section and the accept loop with the configuration it gives | invariant over runs of the accept loop: which outcomes the configuration allows; the numbers by induction on runs |
| C183 the format of the tunnel | ProtModel as it is; WfSpec writes the format down as concatenations of fields | the encoder equals the written format for every message that fits; the decoder inverted field by field, by induction on the lists, in both directions |
| C184 what a file-server command serves | FsModel: the section of ArgModel loaded by InhModel fill_http, routed by RouteModel operate and served by FileModel deal; the tree of files is arbitrary | composition of C171, C119, C123 and the file server, with the loader and the route computed; the index and the listing by cases |
| C185 what a reverse-proxy command passes on | RpModel: the section of ArgModel loaded by FsModel load_web, routed by RouteModel operate with the kept connection in its cache, the target chosen by TgtModel http_target; the health records, closing and the answers are arbitrary at each request | composition of C171, C123 and the route; induction over the requests of a connection, with the kept connection leading to the backend as the invariant |
| C186 what a ws-proxy command connects | WpModel: the section of ArgModel loaded by FsModel load_streams, the first server with the port, TgtModel stream_target and the conversion by the mode; the health records are arbitrary | composition of C171, C120 and C126 with the loader computed |
| C187 who a proxy command serves | PxModel: the section of PlModel, wmcore.rs deal_client_stream and proxy/server.rs over HttpProxyModel and SocksModel; the requests the HTTP library reads from a connection are an arbitrary function of its bytes | composition of C178, C48, C36 and C33 |
| C188 a client behind a tunnel | RmModel: the proxy started for each stream (center_server.rs:186-207) over PxModel, with the two machines of CsModel and CcModel and the connection between them | invariant that data leaves the client after the request for its stream, so that nothing of it precedes the service; then composition of C89, C178, C48, C36 and C33 |
| C189 a tunnel at rest | CsModel and CcModel connected as in C85; rest is that queues and write buffers are empty and that each side has read what the other wrote | contacts as a function of the create frames the client decoded; at rest these are all frames of the server, by the wire equation of C85 and the decoder (C01); frames of one stream by the routing of C10 and C08; that rest can be reached by induction on what is unread, queued and undecoded at each end, with visitors emptying their queues where the server waits for one |
| C190 the lines of an access log | AlModel: the record of helper.rs:243 encoded with LogModel in the format of reverse/http.rs:117-119; the pattern of the file appender by the documentation of log4rs | the format is parsed once for all by the grammar lemma of C77; the line as a function of the request; UTF-8 and the split at the first blank are injective |
| C191 rate limits | RaModel: location.rs:188-210 over the settings of InhModel and the answers of FileModel; a body is told a rate or not; pacing itself is in wenmeng | cases on the body of the answer and on who names the root, with the handing down of C32 and C61 |
| C192 several ports of a section | MlModel: queues of connections per listener, or UdpModel per listener; each round polls them in the order of the list up to the first that is ready | in order and at once by induction on runs; a measure of what waits before a connection; the run of one UDP port as a run of UdpModel by projection, so that C41 and C73 to C76 apply; starvation for every length of run |

## Trusted base

1. Coq 8.16.1's kernel (and `coqc`, which loads and runs it).  No kernel check is switched
   off, there is no `Axiom`, `Parameter`, `Admitted` or section-less `Variable`, and no
   functor or module type.
2. Axioms: none.  Every theorem named in `MANIFEST.json` is followed by
   `Print Assumptions` in its `XProps.v` file, and the answer is
   `Closed under the global context` for all of them.  The gate's list of library axioms
   (`Coq.ssr.ssrunder.Under_rel.*`) are the fields of a module the standard library's own
   `ZifyBool`/ssreflect files declare; no theorem depends on them.
3. The reading of `/repo`: the model is written by hand from the text.  The comment at each
   definition cites the lines it was read from, and says where it simplifies.
4. What the model takes from outside `/repo`:
   * Rust semantics: integer widths and overflow (a debug build panics, a release build wraps;
     sizes, durations, address gates and weights take the panic, the width of a log column
     wraps, as the comments there say), `str` and UTF-8
     (`Text.v`, `TextOps.v`, concrete), `Vec`, `HashMap`.
   * tokio: a bounded channel is a FIFO queue with a capacity; `send` waits when it is full,
     `try_send` fails; `select! { biased; .. }` tries its branches in order; a task may be
     interrupted at every `await`.
   * webparse/wenmeng: HTTP messages arrive parsed and are sent as given; `Buf` reads panic
     when too short; header maps are lists of name/value lines.
   * bpaf and serde: the tables their derives make of the structs (`OpModel.v`, `FmModel.v`),
     and how a command line or a tree of keys is read with them.
   * Parameters (universally quantified in the theorems, so nothing is assumed about them
     unless a theorem says so): regex matching, DNS resolution, reachability, file system
     contents, dates of chrono, the random draw of the load balancer, TLS handshakes,
     the text form of IPv6 addresses (IPv4 is concrete, `Ipv4Text.v`).

## What is modelled, file by file

The table is generated from the citations: a function counts as modelled when the comment of
some definition cites lines inside it.  That is a statement about coverage, not about
completeness: a cited function may still be simplified, and then the comment at the
definition, or the head of its model file, says how.  The right column lists every
function no definition cites (test functions are left out); constructors, getters and
`Default`s in it are usually inlined where they are used, but nothing is proved about them
as such.

| File | Functions cited | Functions not cited (lines) |
|---|---|---|
| arg.rs | 4 of 4 | - |
| check/active.rs | 5 of 6 | do_start 149-154 |
| check/health.rs | 10 of 11 | instance 85-87 |
| config/duration.rs | 2 of 5 | new 22-24, from 28-30, from 34-36 |
| config/header.rs | 6 of 7 | new 80-87 |
| config/ip_sets.rs | 6 of 6 | - |
| config/log.rs | 3 of 4 | new 27-33 |
| config/mod.rs | 5 of 5 | - |
| config/rate.rs | 2 of 5 | new 23-25, from 29-31, from 35-37 |
| config/size.rs | 2 of 5 | new 42-44, from 48-50, from 54-56 |
| config/wrap.rs | 6 of 8 | empty 125-127, is_empty 129-131 |
| control/server.rs | 8 of 8 | - |
| data/limit_req_data.rs | 6 of 7 | new 53-58 |
| error.rs | 0 of 8 | extension 38-40, is_weberror 42-47, to_type 48-63, from 74-76, from 81-83, from 88-90, fmt 95-109, fmt 114-128 |
| flag.rs | 5 of 5 | - |
| helper.rs | 21 of 22 | build_request 530-537 |
| log/mod.rs | 4 of 7 | encode 42-42, set_style 109-111, set_style 115-117 |
| log/pattern/mod.rs | 16 of 20 | flush 193-195, flush 230-232, flush 284-286, default 756-758 |
| log/pattern/parser.rs | 11 of 11 | - |
| log/proxy_record.rs | 1 of 13 | new 27-33, new_res 43-49, args 52-54, metadata 57-59, level 62-64, target 67-69, module_path 72-74, module_path_static 78-80, file 83-85, file_static 88-90, line 94-96, from 100-102 |
| log/writer/simple.rs | 0 of 4 | write 13-15, flush 17-19, write_all 21-23, write_fmt 25-27 |
| main.rs | 2 of 2 | - |
| mapping/config.rs | 2 of 7 | default_domain 20-22, new 40-48, is_http 50-52, is_https 54-56, is_tcp 58-60 |
| option.rs | 39 of 40 | builder 346-348 |
| plugins/file_server.rs | 19 of 22 | default_precompressed 112-114, set_browse 220-222, set_disable_compress 224-226 |
| plugins/mod.rs | 1 of 1 | - |
| plugins/static_response.rs | 3 of 3 | - |
| prot/close.rs | 2 of 6 | new 30-32, new_by_reason 34-36, sock_map 55-57, reason 59-61 |
| prot/create.rs | 3 of 5 | sock_map 79-81, domain 83-85 |
| prot/data.rs | 2 of 5 | new 30-32, data 52-54, sock_map 56-58 |
| prot/flag.rs | 1 of 13 | zero 30-32, load 41-44, ack 46-48, is_ack 50-52, create 54-56, is_create 57-59, close 61-63, is_close 65-67, data 69-71, is_data 73-75, kind 77-81, default 85-87 |
| prot/frame.rs | 5 of 19 | new 51-58, sock_map 60-62, flag 64-66, parse 69-75, new_create 139-141, new_close 143-145, new_close_reason 147-149, new_data 151-153, new_mapping 155-157, new_token 159-161, is_create 163-168, is_close 170-175, is_data 177-182, is_mapping 184-189 |
| prot/kind.rs | 2 of 2 | - |
| prot/mapping.rs | 2 of 6 | new 31-36, sock_map 90-92, mappings 94-96, into_mappings 99-101 |
| prot/mod.rs | 2 of 2 | - |
| prot/token.rs | 4 of 7 | new 30-32, username 50-52, password 54-56 |
| proxy/http.rs | 5 of 7 | as_any 155-157, as_any_mut 159-161 |
| proxy/server.rs | 4 of 4 | - |
| proxy/socks5.rs | 15 of 16 | new 44-54 |
| reverse/common.rs | 7 of 7 | - |
| reverse/http.rs | 14 of 17 | operate 55-57, middle_operate 59-67, is_continue_next 69-71 |
| reverse/limit_req.rs | 6 of 9 | new 35-41, new 51-53, new 61-63 |
| reverse/location.rs | 11 of 11 | - |
| reverse/matcher.rs | 11 of 11 | - |
| reverse/mod.rs | 4 of 4 | - |
| reverse/reverse_helper.rs | 2 of 2 | - |
| reverse/server.rs | 7 of 8 | build_url 134-143 |
| reverse/stream.rs | 11 of 13 | new 51-56, local_addr 187-189 |
| reverse/try_paths.rs | 2 of 3 | new 33-35 |
| reverse/upstream.rs | 4 of 8 | default_weight 22-24, fail_timeout 26-28, default_fall_times 30-32, new_single 71-77 |
| reverse/ws.rs | 9 of 12 | new 115-117, new 121-126, on_open 137-141 |
| streams/center_client.rs | 6 of 7 | connect 113-123 |
| streams/center_server.rs | 7 of 11 | sender 74-76, sender_work 78-80, is_close 82-84, serve 238-256 |
| streams/center_trans.rs | 1 of 2 | new 32-42 |
| streams/trans_stream.rs | 10 of 10 | - |
| streams/virtual_stream.rs | 5 of 5 | - |
| trans/http.rs | 4 of 5 | new 60-72 |
| trans/tcp.rs | 1 of 2 | new 30-42 |
| wmcore.rs | 13 of 15 | new 67-93, clear_close_servers 375-377 |

Left out on purpose, also inside cited functions: serde (de)serialisation beyond the tables of NuModel and FmModel, socket options,
TLS and certificates beyond which file is chosen, HTTP parsing and printing, the bytes copied
after `copy_bidirectional`, WebSocket conversion of streams
(an external crate), timeouts and rate layers handed to `wenmeng`, everything printed to the
console.

## Seeded edits

`seeded/LOG.jsonl` has one line per edited model.  `failed` is measured like this: each lemma
or theorem whose script no longer goes through is admitted in the scratch copy, and the
theorems that then depend on an admitted one are listed.  So a listed theorem is one whose
proof broke, directly or through a lemma; that does not show its statement to be false of
the edited model, and a long list says more about shared lemmas than about the theorems.
What an empty list shows is definite: every theorem still proves.  For those edits
`tightened` names a theorem whose statement was changed because of it, `added` a theorem
written because of it, and `failed_later` theorems written afterwards for other reasons that
fail in a second run.  Lines of a second run have the suffix `r`.
