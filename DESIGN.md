# Formal model of micolous/cbus in Rocq

## Approach

The Python code in `/repo/cbus` is transcribed, function by function, into total
Gallina functions. Python integers are `Z`, `bytes` are `list Z` (with a
well-formedness predicate 0..255), Python exceptions are values
(`res A := Ok a | Raise e`), and `warnings.warn` calls are a list of warning
tags returned beside the result, so that they are observable.

Files in `rocq/theories` (model files contain no proofs):

| file | models |
|---|---|
| `Py.v` | Python primitives used by the code (bytes, find, slices, base16, struct) |
| `Text.v` | Python `str` as lists of code points: `int()`, `str()`, `upper`, `strip`, `split('/')`, JSON values |
| `Common.v` | `cbus/common.py` |
| `Sal.v` | `cbus/protocol/application/*.py` |
| `Cal.v` | `cbus/protocol/cal/*.py` |
| `Packet.v` | `cbus/protocol/*_packet.py`, `packet.py` |
| `Buffered.v` | `cbus/protocol/buffered_protocol.py` |
| `Mqtt.v` | topics and publishing half of `cbus/daemon/cmqttd.py` |
| `Client.v` | `cbus/protocol/pciprotocol.py`, `cbus_protocol.py` (client), `CBusHandler` of `cmqttd.py` |
| `Server.v` | `cbus/protocol/pciserverprotocol.py`, `cbus_protocol.py` (emulator) |
| `Cmqttd.v` | `MqttClient` and `read_cbz_labels` of `cbus/daemon/cmqttd.py` |
| `Daemon.v` | the running daemon: histories of calls on both of its connections |
| `Loop.v` | a client and an emulator at the two ends of a connection |
| `Timed.v` | the time synchronisation tasks of a client, with the event loop's clock |
| `House.v` | the daemon (`Daemon.v`) connected to an emulator (`Server.v`) by the streams of `Loop.v` |
| `Fetch.v` | `cbus/tools/fetch_protocol_docs.py` |
| `Cmdline.v` | the argument parser of `_main` of `cbus/daemon/cmqttd.py`, `entrypoint-cmqttd.sh` |
| `Argparse.v` | the argument parsers of `dump_labels.py`, `graph.py`, `fetch_protocol_docs.py`, `decode_packet.py`, and of `pciprotocol.py` and `pciserverprotocol.py` run as programs |
| `Redirect.v` | `scripts/tcp_serial_redirect.py`: `Redirector` and the main loop |
| `RedirectLine.v` | `scripts/tcp_serial_redirect.py`: the options, with the part of optparse they use, and the steps up to the first connection |
| `RedirectLink.v` | a client (`Client.v`) and an emulator (`Server.v`) with the redirector between them |
| `RedirectHouse.v` | the daemon (`Daemon.v`) and an emulator (`Server.v`) with the redirector between them |
| `Responder.v` | `experiments/cni_discovery.py` |
| `Threads.v` | `cbus/protocol/buffered_protocol.py` called from several threads, statement by statement, with its lock |
| `Race.v` | `_send` and `_get_confirmation_code` of `cbus/protocol/pciprotocol.py` called from several threads |
| `Restart.v` | the daemon (`Daemon.v`) stopped after any effect and started again, any number of times |
| `Json.v` | what `json.dumps` and `json.loads` do in `cbus/daemon/cmqttd.py`, on characters and bytes |
| `Float.v` | what `float(s)` does to the numbers in those texts (`cmqttd.py` 144) |
| `Scripts.v` | `scripts/cbus_on`, `cbus_off`, `cbus_ramp`, `cbus_listen`, `cbus_config` |
| `Startup.v` | `_main` and `read_auth` of `cbus/daemon/cmqttd.py` |
| `Helper.v` | `cbus/paho_asyncio.py` |
| `Transport.v` | the client or the daemon (`pciprotocol.py`, `cmqttd.py`) on asyncio's TCP transport |
| `Line.v` | the daemon and the emulator at the two ends of a TCP connection (`cmqttd.py`, `pciserverprotocol.py`) |
| `Project.v` | the objects of a Toolkit project (`cbus/toolkit/cbz.py`) and dicts keyed by address |
| `Cbz.v` | `cbus/toolkit/cbz.py`, `read_cbz_labels` on a file |
| `Toolkit.v` | `cbus/toolkit/dump_labels.py`, `cbus/toolkit/graph.py` |
| `Tools.v` | the text and the files of `cbus/toolkit/dump_labels.py` (`main` after the command line is parsed) and `cbus/toolkit/graph.py` (`main`, reading) |
| `Registry.v` | `cbus/protocol/application/__init__.py` |
| `Base.v`, `*_facts.v`, `Packet_*.v`, `Client_*.v`, `System_*.v` | lemmas |
| `Spec*.v` | small specifications independent of the model |
| `Prop_*.v` | the property theorems, each with `Print Assumptions` and a concrete case |

A theorem named `Cnn_..._refuted` shows by a witness that an expectation one
could have about the code (not the property as stated in `properties.jsonl`) is
false.

## Plan per property

* C01, C02: `cbus_checksum` as a fold; induction over the message; sums mod 256.
* C03: base16 as a `flat_map`; finite sweep on bytes, induction on lists.
* C04: the rate table as an association list; `lia` on the 17 intervals.
* C05, C06: SAL encode/decode; decoder by structural recursion with fuel = length;
  round trip by induction over the command list; totality/prefix by induction on data.
* C07, C08: as above for the clock application; dates as (y, m, d) with the
  proleptic Gregorian validity predicate.
* C09: temperatures as rationals `Q` (the code multiplies by 4, exact in binary floating point).
* C10, C11: as C05.
* C12, C13: status reports, induction on the state list; byte sweeps for nibbles.
* C14, C18: `decode_cal` loop; induction on the CAL list.
* C15-C17: composition with base16, checksum and `find` of the terminator.
* C19-C23: case analysis of `decode_packet` over arbitrary bytes.
* C24, C25, C27: `BufferedProtocol` over an arbitrary handler (a parameter); fuel
  = buffer length + 1, proved sufficient.
* C26: prefix stability (C20) lifted by induction over chunk lists.
* C28-C32, C52: client as a state machine with a trace of effects.
* C33-C38: emulator as a state machine with a trace of effects.
* C39: client and cmqttd handler variants; `datetime.now()` as an oracle.
* C40-C43, C51: strings, decimal printing, JSON payloads as an AST.
* C44: registry as a finite map, permutations.
* C45, C46: packet object as a state machine.
* C47, C50: arithmetic on the header bytes.
* C48, C53, C54: composition of C15-C17 with C26.
* C49: the project tree as nested lists.
* C55: computation on the handshake bytes with an arbitrary continuation.
* C56: day number arithmetic.
* C57: case analysis of `decode_packet` on the first bytes.
* C58: refinement of the emulator to a session state machine (`Spec_server.v`).
* C59: soundness predicate on decoded packets, by inversion of the decoder.
* C60: a bound kept by every write of every call.
* C61-C63: `daemon_run`; a chronicle relation (`Spec_daemon.v`) built from the
  calls and the lighting callbacks; induction over the history using C41-C43.
* C64: XML elements as trees, the dataclasses as a table of fields; the two loops
  of `from_element` as folds per field; induction over the tree for the errors and
  for the schema of a document (`valid`, written with the Toolkit's names).
* C65: a relation between documents and project objects (`Spec_cbz.v`), composed
  with C49 and C51.
* C66: case analysis of the file's form.
* C67, C68: dicts filled in a loop as "last with that key"; composition of both
  tools; the graph tool alone on any JSON document (`network_drawn`,
  `bad_network`).
* C69: a loop that stops at bare CALs is prefix stable; it does the same as the
  emulator's loop on a stream without them.
* C70: `_main` as the list of its effects in an environment in which each of them
  may raise; the plan of the options as a relation (`Spec_startup.v`).
* C71: the helper and the tasks of the event loop as a state machine; an invariant
  between its state and the observed events.
* C72: every call on the emulator as "announces a line or declines"
  (`Spec_server.v`), part of the session machine of C58; lines are determined by
  their bytes; composition with C15 and C31.
* C73: the two objects and the bytes under way as a transition system; one
  invariant relating the emulator to the script of packets still to come (as in
  C54), one relating the client's buffer to the messages still to come. That there is one
  script (`C73_one_script`): case analysis on the calls.
* C74: tasks with the time from which they may be resumed; invariants on the
  distances of each task's updates and on the age of the last one.
* C75: the daemon, leaving MQTT publications aside, is shown to be a client
  whose program makes the calls that command messages ask for (the attached
  MQTT client only adds publications); C73 then gives what each side learns, and
  C61 what the broker retains.
* C76: a small file system and the trace of requests and writes; the disk after
  any beginning of a trace is described by which links were taken care of
  (`saved`), by induction on the links; an interrupted run and its successor take
  care of the same links as an undisturbed one. The name of a file is related to
  the link by `Spec_fetch_name.v`, which defines lenient UTF-8 decoding through
  the encodings of characters and is shown to be a function.
* C77: the words are classified and consumed as argparse does it; each spelling of
  a setting is shown to consume to that setting, then induction over the settings;
  for arbitrary words an induction over the classified words that follows only the
  TLS flag and the two interfaces. An abbreviation has exactly one candidate, an
  ambiguous word at least two.
* C78: field splitting of the script's argument string gives a list of settings
  (composition with C77); every field of a value is a stretch of it at its start or
  after white space.
* C79: a grammar of JSON texts as an inductive relation, UTF-16 and UTF-32 as
  relations (`Utf_facts.v`), and the usual table of
  UTF-8; the scanner is proved sound and complete for it (induction over its fuel,
  which is proved to suffice, and over derivations), then composition with C41 and
  C42.
* C80: `dumps` denotes its value and is printable, by induction over publishable
  values; an invariant over daemon histories shows all payloads publishable.
* C81: the payload of each script is put through the grammar of C79 and then
  through C41 and C42; every publication of a history comes from a report or from
  the discovery messages.
* C82: the indented text is derived in the grammar of C79 by induction over the
  value; its layout by reading it from left to right with the number of open
  brackets, as an invariant over concatenation. The graph program then reads the
  value back (C79) and C68 applies.
* C83: a run is a list of actions on the disk; a killed run has done a beginning of
  it, the last append perhaps in part. An object is read up to its closing bracket
  whatever follows, so no proper beginning of it is a document. What is too deep
  stays so whatever follows, by induction over the parser's fuel.
* C84: an induction over the words as the parser has sorted them: a positional
  argument is filled with exactly one word, and the type given for it rejects every
  text.
* C85: `Spec_argparse.v` says how options may be written and which of them counts. One
  induction for any parser of this kind (`scan_usual`), then the actions of each
  program. The help is the first action of a line that begins with it.
* C86: an invariant over steps of the two threads: what came from the serial port is
  what was sent, then what a thread holds, then what waits at the port; the same for
  each connection towards the serial port. Progress by running the threads on.
* C87: an invariant relates the events so far to the state of the connections; all
  connections but the last are over.
* C88: `split` and `join` are proved to be the replacement of newlines from the left
  (an inductive relation), which distributes over concatenation unless a newline is
  cut.
* C89: a simulation in both directions between `RedirectLink.v` and `Loop.v`; what is
  on its way in a direct connection is what is on its way and in the hands of the
  threads.
* C90: a datagram counts two if it is a query and one otherwise; every delivery makes
  the sum smaller.
* C91: invariants over steps of the threads: at most one is inside a `with` block; the
  effects so far are those of the parts that are complete, in the order of their
  completion, and of the part that is going on. For the client the parts are then
  put together by the lemmas for C26. Progress by a well-founded measure.
* C92: an invariant relates what each thread has done to calls of `send` (`Client.v`);
  a second one says that the counter is out of range only while some thread is about
  to reduce it.
* C93: the effects that matter, in order, are a concatenation of what is done about
  each entry of the chronicle (induction over the history); every crash point cuts it
  inside at most one of them. What is retained follows by comparing, for one topic, the
  list of messages with the list of entries.
* C94: after a whole telegram the buffer is empty or begins with a line that cannot be
  decoded (induction over the receive loop, from how far the decoder reads); then C27
  until the overflow, and C53 from there on. It is about a transport that goes on after
  an exception of `data_received`, as a serial one may (`pyserial-asyncio` is not part
  of `/repo`); asyncio's TCP transport does not, see C95.
* C95: the socket transport of CPython 3.11's asyncio between the network (an oracle for
  `socket.send`, arbitrary arrivals) and an arbitrary object; an invariant of its flags,
  its buffer and what the object was told; composition with C52 and C53. The transcription
  was compared with the real class on 20000 random histories. After the end of the stream
  with bytes waiting, an invariant of the bytes on the wire and those waiting.
* C96: two transports of C95 and the bytes under way between them. Each history is matched,
  step by step, with one of C75 in which the pieces not handed over, the calls after the
  loss and the bytes never sent are left out; C75 (whose limit of 210 bytes for a piece is
  first weakened to pieces that are accepted) then gives what each side learns. A piece the
  daemon refuses is the end of its connection, so nothing is ever dropped in between.
* C97: optparse's loop over the words of the line as a total function, compared with the
  real module (Python 3.11) on random lines. A relation says which words are items of a
  line; every line begins with an item, asks for help or is an error (case analysis), so
  that the relation and the loop agree by induction over the number of words. The values
  are those given last, by induction over the options from the end. What `int` makes of
  a string is left open.
* C98: no CR in the buffer is an invariant of a client that never receives one, and then
  the decoder never finds the end of a line; with C88, no CR is left in converted whole
  lines. The alphabet of the commands is an invariant over all calls.
* C99: the forms are relations written with literal numbers only; each encoder is shown to
  succeed exactly for what is related to some bytes, and the relations are functional. With
  C15 to C18 the decoder reads these forms. This closes a gap of the round-trip properties:
  they cannot see a constant that is wrong in encoder and decoder alike.
* C100: the grammar is a set of inductive relations written with literal numbers. Layer by
  layer (commands of each application, management messages, header, digits, line) the
  decoder is shown to succeed exactly with what the relation says, one direction by
  induction on the number of bytes left and the other on the derivation; for bit masks over
  one byte all 256 values are computed.
* C101: `told` (`Spec_listen.v`) gives a message and its callbacks, lines by the grammar of
  C100. Both directions between it and the decoder give, with C31, one step of the client;
  induction over the messages and the pieces gives the stream.
* C102: the outcomes are a relation (`Spec_whole.v`) over C100's grammar and C21's lines; it
  is shown to hold of what the decoder gives and to be functional.
* C103: C58's session with `sent_as` (C102) in place of the decoder (`Spec_session.v`), by
  induction over the session.
  That the rules leave no choice (`C103_one_session`): the lines are determined by the bytes in them,
  the outcomes by C102; case analysis on pairs of rules.
* C104: `brings` (`Spec_relay.v`) gives the sender and commands of each message of C101's stream; the
  run over the stream is built message by message and equals the run over the pieces (C26).
  That there is one reading (`C104_one_reading`) follows from C100 and C101.
* C105: `Spec_float.v` has doubles as whole multiples of 2^-1074 with at most 53
  significant bits, and the nearest one to a fraction. The rounding function is proved to
  give it (no double lies between neighbours), it is unique (of two neighbours only one has
  an even mantissa), and a double is never stepped over; the rest follows from C79.
* C106: the simulation of C89 with the daemon (`House.v`) in place of the client, which also relates
  the final states; C75 then carries over.

## Trusted base

* Coq 8.16.1's kernel, including its `vm_compute` conversion.
* Axioms: none. `Print Assumptions` says "Closed under the global context" for
  every theorem in the `Prop_*.v` files. (Loading the standard library's tactics
  brings in the parameters of the module type in `ssr/ssrunder`; no theorem uses
  them.)
* The transcription of Python to Gallina. It is by inspection; each definition
  cites its source lines and says where it simplifies.

Oracles. These are universally quantified parameters of the theorems, not
axioms: `now` (successive results of `datetime.now()`), `rnd` (successive
results of `randint(1, 100)`), `u : unicode` (which code points above 126 are
spaces or decimal digits), `lib : library` (lower case above 127, `UUID(s)`,
`datetime.fromisoformat(s)`), `site` (answers of the web server, `HTMLParser`,
`urljoin` and `urlparse`, failures of the file system), `fs : files` (contents of
the files named on the command line), `glob` (pathname expansion of the shell),
`json_library` (`float(s)`, `repr` of a float), and the depth of
nesting at which the interpreter gives up.

Modelled: everything in the files of the table above, as far as it has effects a
caller or a peer can see: results, exceptions, warnings, bytes written, methods
called, MQTT publications and subscriptions, the task and future handling of the
client, the receive buffer.

Not modelled:

* asyncio itself: except in `Threads.v`, `Race.v`, `Redirect.v`, `Transport.v` and `Line.v` calls on an object happen one
  after the other (`asyncio` is single-threaded; the locks in the code are never
  contended within one call). The order of the calls is arbitrary.
* what `threading.Lock` does is assumed as documented; a step of `Threads.v` is a
  statement or a part of one, and nothing else happens during it. In `Race.v` a step has one access to an attribute;
  a thread may be stopped between any two of them, which the language allows.
* the MQTT library: it is assumed to hand messages to the broker once and in the order
  they are published; in `Restart.v` any of the last ones may be lost when the process
  is stopped. Commands sent to the daemon while it is down are not modelled (whether
  the broker keeps them depends on its session options).
* TCP: in `Loop.v` a connection is an ordered byte stream in each direction,
  delivered in pieces of any size at any time; its loss is not part of that model.
* logging, `repr`, and the `_main` functions, except where a file of the table
  says so. `argparse` is modelled for the daemon's parser as of Python 3.11.10, as
  far as this parser uses it (`Cmdline.v`). That is the version that could be read
  and run beside the model: on 6000 random command lines a copy of the parser's
  declarations gave what `parse_args` computes. The container image has an older
  Python (alpine 3.11), whose source was not at hand. Versions are known to differ
  on an attached value `--` (`--log-file=--`) and on letters or an equals sign
  attached to a flag (`-C=`, `-Cz`); nothing is claimed about those words on other
  versions. `Argparse.v` does the same with positional arguments for the other
  programs; it agreed with copies of their six parsers on 7200 random command lines.
  `decode_packet.py` declares `type=bytes`, and `bytes(text)` raises a TypeError in
  every Python 3.
* the shell, beyond what `Cmdline.v` says: `${X:-d}`, `${X:?}`, tests for empty
  strings and for files, field splitting with the default IFS, pathname expansion
  as an oracle.
* the MQTT library (paho): its calls and callbacks are arbitrary.
* the text of JSON outside `Json.v`: elsewhere a payload is the JSON value, or None
  if it does not parse; C79 and C80 close this gap. Left open in `Json.v`:
  `float(s)` and `repr` of a float (`json_library`); `Float.v` says what `float(s)` does
  (C105), `repr` is not needed, as nothing published contains a float. The encodings `json.loads` knows
  (UTF-8, UTF-16 and UTF-32, with and without a mark) are modelled and covered.
* Python's own functions, where the model says what they do, were compared with
  Python 3.11.10 on random inputs: `json.dumps`, `json.dump` with an indentation and
  `json.loads` (14000 values and payloads), its choice of encoding with the UTF-16
  and UTF-32 decoders (240000 payloads, a line by line copy of the definitions), `float(s)` on numerals, ties included (160000, likewise a copy), `int(s)`, `int(s, 16)`, `strip` and
  `split` (8000 texts), `unquote`, `urlunparse` and `os.path.join` (6400). These comparisons are tests of the transcription, not proofs.
* `Conformance.v` has the project's own unit tests (`/repo/tests`) as computations on
  the model; all of them come out as the tests expect. Tests as well, not proofs.
* mosquitto_pub and mosquitto_sub: the broker delivers a message exactly to the
  subscribers of its topic (`Scripts.v`).
* reading zip archives and XML text: a file is given as its members and the
  element trees in them. One fact about the standard library is built in:
  `ZipFile` leaves an open file that is no archive at its end, where
  `ElementTree.parse` then finds nothing (C66).
* failures while writing to an open file.
* pydot: a graph is the nodes and edges given to it.
* floats: the finite ones that occur are rationals, with NaN and infinities as
  separate values where JSON can deliver them. Temperatures are multiplied by
  4, which is exact in binary floating point.
* CPython's limit of 4300 digits in `int(str)`, also in JSON (newer versions refuse longer numerals with a
  ValueError, unless the limit is switched off): nothing is claimed for longer numerals where the limit is on.
* memory exhaustion, signals, and cancellation of tasks other than those of
  `paho_asyncio.py`.
* file systems, beyond a map from paths to contents: in `Fetch.v` two paths are
  the same file only if they are the same string. HTTP redirections are part of
  the server's answer.
* in `Redirect.v` and `RedirectLine.v`: the messages on the console, Ctrl-C; what a
  call of the serial port or the socket does inside is one step. The script is for
  Python 2, which is not installed here; the model follows its text.
* in `Responder.v`: Twisted, the texts printed, errors of `sendto`.
* `docs/`, `wiser-swf-de/`: separate tools, not part of the library.
