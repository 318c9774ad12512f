{"id": "C01", "title": "Checksum closes the byte sum", "statement": "For every message m, add_cbus_checksum(m) is m followed by exactly one byte c in 0..255 such that the sum of all its bytes is a multiple of 256. validate_cbus_checksum(x) is True exactly when x is non-empty and its bytes sum to a multiple of 256, False for every other non-empty x, and raises IndexError for the empty message.", "quantifier": "every byte string of every length", "why_tests_cant": "the checksum is an accumulation over messages of unbounded length; tests check 256 one-byte messages and the empty one", "anchors": ["cbus/common.py:cbus_checksum", "cbus/common.py:add_cbus_checksum", "cbus/common.py:validate_cbus_checksum", "cbus/common.py:get_real_cbus_checksum"]}
{"id": "C02", "title": "Every single-byte corruption of a checksummed message is detected", "statement": "If a checksummed message validates and one byte of it (payload or checksum byte, at any position) is replaced by a different byte, validate_cbus_checksum returns False for the altered message.", "quantifier": "every message, every position, every wrong byte value", "why_tests_cant": "quantifies over all messages, positions and replacement values", "anchors": ["cbus/common.py:cbus_checksum", "cbus/common.py:validate_cbus_checksum"]}
{"id": "C03", "title": "Base16 transport is lossless and self-delimiting", "statement": "encode_packet() of a regular packet consists only of characters 0-9A-F, is twice as long as the raw encoding, and base16-decoding it returns the raw encoding; so it never contains CR, LF, a confirmation code or any other control character of the serial protocol.", "quantifier": "every byte string", "why_tests_cant": "unbounded byte strings", "anchors": ["cbus/protocol/base_packet.py:BasePacket.encode_packet", "cbus/protocol/packet.py:decode_packet"]}
{"id": "C04", "title": "Ramp durations are rounded up to the next supported rate and saturate", "statement": "duration_to_ramp_rate(s) is the code of the smallest supported duration >= s for every s <= 1020 (in particular every negative s gives the instant ramp), and the 17-minute code for every s > 1020; ramp_rate_to_duration inverts it on supported durations, is injective, and raises KeyError for every code that is not a ramp rate. The quantisation is monotone and idempotent.", "quantifier": "every integer number of seconds, every integer code", "why_tests_cant": "unbounded integer domain", "anchors": ["cbus/common.py:duration_to_ramp_rate", "cbus/common.py:ramp_rate_to_duration", "cbus/common.py:_LIGHT_RAMP_RATES"]}
{"id": "C05", "title": "Lighting commands round-trip", "statement": "Encoding any sequence of lighting on/off/ramp/terminate-ramp commands with group addresses 0..255 and levels 0..255 and decoding the concatenation gives back the same commands in the same order with the same addresses and levels, ramp durations being replaced by the supported duration they round to, with no warning.", "quantifier": "every list of lighting commands, any length, any integer ramp duration", "why_tests_cant": "unbounded command sequences whose encodings must not be confused with one another", "anchors": ["cbus/protocol/application/lighting.py:LightingSAL.decode_sals", "cbus/protocol/application/lighting.py:LightingRampSAL", "cbus/protocol/application/lighting.py:LightingOnSAL", "cbus/protocol/application/lighting.py:LightingOffSAL", "cbus/protocol/application/lighting.py:LightingTerminateRampSAL"]}
{"id": "C06", "title": "Lighting decoder is total, and lossless unless it warns", "statement": "LightingSAL.decode_sals never raises on any byte string. The commands it returns re-encode to exactly a prefix of the input; the whole input is covered exactly when no warning is emitted; at most one warning is emitted, for the first undecodable command, and nothing after that point is interpreted.", "quantifier": "every byte string", "why_tests_cant": "all inputs of unbounded length, including malformed ones", "anchors": ["cbus/protocol/application/lighting.py:LightingSAL.decode_sals", "cbus/protocol/application/lighting.py:_SAL_HANDLERS"]}
{"id": "C07", "title": "Clock updates and requests round-trip", "statement": "Encoding any sequence of clock updates (any valid date with year 1..9999, any valid time of day) and clock requests and decoding the concatenation gives back the same sequence with no warning (sub-second part dropped). clock_update_sal of a datetime yields its date followed by its time, in that order, in one packet.", "quantifier": "every sequence of valid dates, times and requests", "why_tests_cant": "the date domain and the sequence length are unbounded for practical testing", "anchors": ["cbus/protocol/application/clock.py:ClockSAL.decode_sals", "cbus/protocol/application/clock.py:ClockUpdateSAL", "cbus/protocol/application/clock.py:ClockRequestSAL", "cbus/protocol/application/clock.py:clock_update_sal"]}
{"id": "C08", "title": "Unknown clock variables: resynchronisation", "statement": "A well-sized clock variable that is skipped because its length is wrong for its type (date not 6, time not 5) leaves the commands after it intact. A variable with an unknown id does not: the decoder drops n further bytes after the n bytes of the variable itself (skips it twice), so the commands that follow are lost or misread. Both facts hold for all bodies and all following data.", "quantifier": "every command length 0..7, every body of that length, every following byte string", "why_tests_cant": "needs all bodies and all continuations", "anchors": ["cbus/protocol/application/clock.py:ClockUpdateSAL.decode"]}
{"id": "C09", "title": "Temperature broadcasts are quantised downwards to quarter degrees", "statement": "For every group address 0..255 and every temperature t with 0.0 <= t <= 63.75 the encoded broadcast decodes to the same group and to floor(4t)/4, so the decoded value is at most t and within a quarter degree of it; any other finite temperature or group makes encode raise ValueError. Sequences of broadcasts round-trip.", "quantifier": "every rational temperature, every integer group address, every list of broadcasts", "why_tests_cant": "dense numeric domain", "anchors": ["cbus/protocol/application/temperature.py:TemperatureSAL.decode_sals", "cbus/protocol/application/temperature.py:TemperatureBroadcastSAL"]}
{"id": "C10", "title": "Enable-control network variables round-trip modulo 256", "statement": "Any sequence of set-network-variable commands with arbitrary integer variable and value encodes without error and decodes to the same sequence with both reduced modulo 256, no warning. The decoder never raises on any input.", "quantifier": "every list of commands with arbitrary integers; every byte string", "why_tests_cant": "unbounded", "anchors": ["cbus/protocol/application/enable.py:EnableSAL.decode_sals", "cbus/protocol/application/enable.py:EnableSetNetworkVariableSAL"]}
{"id": "C11", "title": "Status requests round-trip on block boundaries", "statement": "Any sequence of status requests (binary or level) with arbitrary integer child application and group address encodes without error and decodes to the same sequence with the application reduced mod 256 and the group address rounded down to its 32-address block (mod 256). The decoder raises for every input that is not a concatenation of well-formed requests on a block boundary.", "quantifier": "every list of requests with arbitrary integers; every byte string", "why_tests_cant": "unbounded sequences, all malformed inputs", "anchors": ["cbus/protocol/application/status_request.py:StatusRequestSAL"]}
{"id": "C12", "title": "Binary status reports round-trip with padding to four groups", "statement": "Encoding any sequence of group states and decoding it gives the same sequence followed by fewer than four MISSING entries, none when the length is a multiple of 4; decoding any byte string gives 4 states per byte and re-encodes to the same bytes.", "quantifier": "every sequence of group states; every byte string", "why_tests_cant": "unbounded lengths", "anchors": ["cbus/protocol/cal/report.py:BinaryStatusReport"]}
{"id": "C13", "title": "Level status reports and Manchester coding round-trip, and corrupt nibbles are not levels", "statement": "Every sequence of levels 0..255 or missing round-trips through LevelStatusReport encode/decode; levels outside 0..255 are reduced mod 256. manchester_decode of two bytes is a level exactly when all four nibbles are code words, in which case re-encoding gives the same two bytes, and None otherwise; a flipped bit in an encoded level is always reported as None. An odd-length report raises ValueError. manchester_encode changes only the two bytes at its offset.", "quantifier": "every sequence of optional integers; every byte string; every buffer and offset", "why_tests_cant": "unbounded sequences; all bit corruptions", "anchors": ["cbus/protocol/cal/report.py:manchester_decode", "cbus/protocol/cal/report.py:manchester_encode", "cbus/protocol/cal/report.py:LevelStatusReport"]}
{"id": "C14", "title": "CAL sequences round-trip", "statement": "Any sequence of identify, recall, reply and extended-status CALs within their field ranges (reply payload <= 30 bytes, report <= 28 bytes) that is encoded in a point-to-point packet decodes to the same sequence; a reply payload longer than 30 bytes is truncated to its first 30 bytes.", "quantifier": "every list of CALs", "why_tests_cant": "the CALs are concatenated without separators, so unambiguity is a property of all sequences", "anchors": ["cbus/protocol/pp_packet.py:PointToPointPacket.decode_cal", "cbus/protocol/cal/reply.py:ReplyCAL", "cbus/protocol/cal/identify.py:IdentifyCAL", "cbus/protocol/cal/recall.py:RecallCAL", "cbus/protocol/cal/extended.py:ExtendedCAL"]}
{"id": "C15", "title": "Point-to-multipoint packets from a PCI round-trip inside any stream", "statement": "For every priority class, every source address 1..255 and every command sequence of one application that round-trips, decode_packet(p.encode_packet() + CRLF + rest) returns an equal packet with the same source address and a position just after the CRLF, whatever rest is. With source address 0 the decoded packet has source_address None instead.", "quantifier": "every packet, every following byte string", "why_tests_cant": "unbounded packets and continuations", "anchors": ["cbus/protocol/pm_packet.py:PointToMultipointPacket", "cbus/protocol/packet.py:decode_packet"]}
{"id": "C16", "title": "Point-to-multipoint commands to a PCI round-trip inside any stream", "statement": "For every command packet without source address and every optional confirmation code g..z, decode_packet(backslash + p.encode_packet() + code + CR + rest, from_pci=False) returns an equal packet carrying that confirmation code and a position just after the CR, provided no '?' precedes the CR (there is none in the encoding).", "quantifier": "every packet, every confirmation code or none, every following byte string", "why_tests_cant": "unbounded packets and continuations", "anchors": ["cbus/protocol/pm_packet.py:PointToMultipointPacket", "cbus/protocol/packet.py:decode_packet"]}
{"id": "C17", "title": "Device-management packets round-trip in both directions", "statement": "Every device-management packet (parameter and value reduced mod 256, any priority class, checksum or not) decodes to the same parameter, value and priority, in both directions, inside any stream; any payload that is not exactly parameter, 0, value yields an InvalidPacket.", "quantifier": "every parameter, value, priority, stream continuation; every malformed payload", "why_tests_cant": "all malformed payloads and continuations", "anchors": ["cbus/protocol/dm_packet.py:DeviceManagementPacket", "cbus/protocol/packet.py:decode_packet"]}
{"id": "C18", "title": "Point-to-point packets round-trip inside any stream", "statement": "Every unbridged point-to-point packet with unit address 0..255 and a round-tripping CAL sequence decodes to the same unit address and CALs in both directions inside any stream; encode of a bridged packet always raises NotImplementedError; decoding a bridged packet, in both directions, keeps hops and unit but a bridge address of 0 makes it invalid, and so does a route byte that is not one of the six.", "quantifier": "every packet and stream continuation", "why_tests_cant": "unbounded", "anchors": ["cbus/protocol/pp_packet.py:PointToPointPacket", "cbus/protocol/packet.py:decode_packet"]}
{"id": "C19", "title": "The decoder's position never runs past the data", "statement": "For data from a PCI, decode_packet returns a position between 0 and len(data), and a position >= 1 whenever a packet is returned. For data to a PCI the same holds except when the result is a bare CAL, where the returned position is the end of the line plus the CAL's length (past the line, possibly past the buffer), so bytes of the next command are discarded. Exactly: the position is the end of the first message ('+', '!', a confirmation code with the byte after it, or a line with its CR LF; in the other direction '~', 'null', a line with its CR, or a line up to its first '?'), a bare CAL apart, and 0 with no packet if there is none yet.", "quantifier": "every byte string, every flag combination", "why_tests_cant": "all inputs", "anchors": ["cbus/protocol/packet.py:decode_packet"]}
{"id": "C20", "title": "Decoding is stable under more data arriving", "statement": "If decode_packet on a buffer consumes something (position > 0) or raises, then on every extension of that buffer it gives the same packet, position, warnings and exception. If it consumes nothing then no complete message is at the head of the buffer. Holds in both directions and for every checksum/strict setting.", "quantifier": "every buffer and every extension", "why_tests_cant": "all splits of all inputs", "anchors": ["cbus/protocol/packet.py:decode_packet"]}
{"id": "C21", "title": "Exactly which inputs make the decoder raise", "statement": "decode_packet from a PCI raises exactly when the first CRLF-terminated line (not starting with '+', '!' or a confirmation code) is non-empty, all upper-case hex, and either has odd length or, after the checksum byte is removed (valid checksum or non-strict mode), is empty; every other input returns a packet, an InvalidPacket or None. The analogous exact condition holds for data to a PCI, including a bare '@', backslash or lone confirmation code line. In particular decode_packet is not exception-free: one odd-length hex line raises binascii.Error.", "quantifier": "every byte string, every flag combination", "why_tests_cant": "exactness over all inputs", "anchors": ["cbus/protocol/packet.py:decode_packet"]}
{"id": "C22", "title": "Strict mode never delivers a packet with a wrong checksum", "statement": "With checksum=True and strict=True, whenever decode_packet returns a PM, PP, DM packet or CAL (and the line is not a '@' command), the hex-decoded line sums to a multiple of 256; with a wrong checksum it returns InvalidPacket carrying the raw bytes and consumes exactly the line.", "quantifier": "every byte string in both directions", "why_tests_cant": "all inputs", "anchors": ["cbus/protocol/packet.py:decode_packet"]}
{"id": "C23", "title": "A corrupted hex digit on the wire is rejected", "statement": "Replacing any single hex digit of a checksummed line by any other hex digit makes strict decode_packet return InvalidPacket with the same position, in both directions.", "quantifier": "every checksummed packet, every digit position, every other digit", "why_tests_cant": "all packets x positions x values", "anchors": ["cbus/protocol/packet.py:decode_packet", "cbus/common.py:validate_cbus_checksum"]}
{"id": "C24", "title": "Receive buffer is bounded", "statement": "Whatever sequence of chunks a buffered protocol receives and whatever its handler does or returns (including raising), its buffer never holds more than size_limit bytes after a call (256 for C-Bus protocols); a chunk larger than the limit is refused with ValueError leaving the buffer untouched; a chunk that would overflow drops both buffer and chunk with ValueError without calling the handler.", "quantifier": "every handler, every chunk history", "why_tests_cant": "unbounded histories and arbitrary handler behaviour", "anchors": ["cbus/protocol/buffered_protocol.py:BufferedProtocol.data_received", "cbus/protocol/buffered_protocol.py:BufferedProtocol._process_buffer"]}
{"id": "C25", "title": "Buffer processing always terminates and makes progress", "statement": "For every handler, one data_received call invokes the handler at most len(buffer) times, counting the bytes just received; each repeated call sees a strictly shorter suffix of the buffer; the loop stops exactly on 0, a negative value, an exception or an empty buffer; a value < -1 clears the buffer and raises ValueError.", "quantifier": "every handler and buffer", "why_tests_cant": "arbitrary handler return values, unbounded buffers", "anchors": ["cbus/protocol/buffered_protocol.py:BufferedProtocol._process_buffer"]}
{"id": "C26", "title": "Events from a PCI do not depend on how the byte stream is fragmented", "statement": "For a PCI client protocol, delivering a byte stream in any two fragmentations, neither of which raises, produces the same sequence of callbacks and writes, the same final buffer and the same state.", "quantifier": "every byte stream, every pair of fragmentations", "why_tests_cant": "exponentially many fragmentations of every stream", "anchors": ["cbus/protocol/buffered_protocol.py:BufferedProtocol.data_received", "cbus/protocol/cbus_protocol.py:CBusProtocol.handle_data", "cbus/protocol/packet.py:decode_packet"]}
{"id": "C27", "title": "A line that makes the decoder raise wedges the connection", "statement": "If the head of the receive buffer is a line on which decoding raises, then every later data_received call raises and delivers no event until the accumulated bytes would exceed 256, at which point the whole buffer is dropped with ValueError; only after that are new packets seen.", "quantifier": "every poisonous head, every later chunk history", "why_tests_cant": "all histories", "anchors": ["cbus/protocol/buffered_protocol.py:BufferedProtocol._process_buffer", "cbus/protocol/packet.py:decode_packet", "cbus/protocol/cbus_protocol.py:CBusProtocol.handle_data"]}
{"id": "C28", "title": "Confirmation codes cycle through all 20 codes", "statement": "Over any history of calls, the k-th confirmed command sent (counting from 0 since construction) carries code b'hijklmnopqrstuvwxyzg'[k mod 20]; the code returned by the API call is the last byte before the CR on the wire; any 20 consecutive confirmed commands carry pairwise distinct codes; unconfirmed sends (reset) and failed calls consume no code.", "quantifier": "every history of API calls, received data and (re)connections", "why_tests_cant": "unbounded histories", "anchors": ["cbus/protocol/pciprotocol.py:PCIProtocol._get_confirmation_code", "cbus/protocol/pciprotocol.py:PCIProtocol._send"]}
{"id": "C29", "title": "Failed API calls have no effect", "statement": "A PCIProtocol command call that raises (not connected, more than 9 groups, no group, group or level out of range, non-integer level) writes nothing to the transport and changes no protocol state; and such calls raise exactly under those conditions.", "quantifier": "every call and every state", "why_tests_cant": "all arguments and states", "anchors": ["cbus/protocol/pciprotocol.py:PCIProtocol._send", "cbus/protocol/pciprotocol.py:PCIProtocol.lighting_group_on", "cbus/protocol/pciprotocol.py:PCIProtocol.lighting_group_ramp"]}
{"id": "C30", "title": "Each API call writes exactly one well-formed command that a PCI decodes to the same request", "statement": "Every successful lighting, identify and clock call writes exactly once: backslash, upper-case hex with valid checksum, one confirmation code, CR; and decode_packet(..., from_pci=False) of those bytes, followed by anything, with or without strict mode, returns the request made: same groups in the same order, same level, quantised duration, same unit and attribute (0..17, the attribute modulo 256; with any other attribute the bytes are an InvalidPacket for a PCI), same date then time, with the returned confirmation code, consuming exactly the written bytes.", "quantifier": "every argument, state and continuation", "why_tests_cant": "unbounded arguments", "anchors": ["cbus/protocol/pciprotocol.py:PCIProtocol", "cbus/protocol/packet.py:decode_packet"]}
{"id": "C31", "title": "Received lighting and clock commands are dispatched exactly once, in order", "statement": "For every packet from a PCI, the client fires exactly one callback per lighting/clock command in it, in order, with the packet's source address and the command's fields; other applications, invalid packets, point-to-point and power-on packets fire none; a confirmation packet fires on_confirmation with its code and success flag; '!' fires on_pci_cannot_accept_data.", "quantifier": "every packet", "why_tests_cant": "packets carry unboundedly many commands", "anchors": ["cbus/protocol/pciprotocol.py:PCIProtocol.handle_cbus_packet"]}
{"id": "C32", "title": "Connecting resets and configures the PCI in a fixed order", "statement": "On connection, from any state, the client writes three resets, then application address 0x38, then options 3 = 0x0E, then options 1 = 0x59, each device-management command with the next confirmation code and without checksum, and nothing else; time synchronisation starts exactly when the frequency is non-zero.", "quantifier": "every prior state and frequency", "why_tests_cant": "all prior histories", "anchors": ["cbus/protocol/pciprotocol.py:PCIProtocol.connection_made", "cbus/protocol/pciprotocol.py:PCIProtocol.pci_reset", "cbus/protocol/pciprotocol.py:PCIProtocol.timesync"]}
{"id": "C33", "title": "Emulated PCI mode flags are a function of the last option write or reset", "statement": "Over any history of received packets, the emulator's basic/connect/checksum/monitor/idmon flags equal what the bits of the last write to parameter 0x30/0x41 say (bits 4,0,3,5,6), or the defaults if a reset came later or no write happened, with the smart-connect shortcut setting smart+connect; no other packet changes them.", "quantifier": "every packet history", "why_tests_cant": "unbounded histories", "anchors": ["cbus/protocol/pciserverprotocol.py:PCIServerProtocol.handle_cbus_packet", "cbus/protocol/pciserverprotocol.py:PCIServerProtocol.on_reset"]}
{"id": "C34", "title": "Emulated PCI confirms exactly the commands it handled, in order", "statement": "For each packet handled, the emulator writes '<code>.' exactly when the packet carried a confirmation code and every command in it was understood; it never sends a confirmation for invalid, point-to-point, CAL or unknown packets, never sends an invalid code and never sends '#'.", "quantifier": "every packet and state", "why_tests_cant": "all packets", "anchors": ["cbus/protocol/pciserverprotocol.py:PCIServerProtocol.handle_cbus_packet", "cbus/protocol/pciserverprotocol.py:PCIServerProtocol.send_confirmation"]}
{"id": "C35", "title": "Emulated PCI echoes exactly the consumed bytes, only in basic mode", "statement": "In basic mode the bytes consumed for each message are written back verbatim before any reply to it; in smart mode nothing is echoed. Over a whole session in which nothing was dropped for lack of space and no packet switched to smart mode, the echoes concatenated are exactly the bytes received, less the incomplete message still in the buffer.", "quantifier": "every received stream and state", "why_tests_cant": "all streams", "anchors": ["cbus/protocol/cbus_protocol.py:CBusProtocol.handle_data", "cbus/protocol/pciserverprotocol.py:PCIServerProtocol.echo"]}
{"id": "C36", "title": "Deferred emulator messages are neither lost, duplicated nor reordered", "statement": "Over any history, the messages queued for later followed by flushes appear on the wire in queueing order, each exactly once, directly after the message whose sending flushed them; what is not yet on the wire is still queued.", "quantifier": "every history of queueing and sending", "why_tests_cant": "unbounded histories", "anchors": ["cbus/protocol/pciserverprotocol.py:PCIServerProtocol._send_later", "cbus/protocol/pciserverprotocol.py:PCIServerProtocol._send"]}
{"id": "C37", "title": "Master-application status reply covers all units in order", "statement": "In basic mode a master-application binary status request is answered by exactly three standard status messages with block starts 0, 88 and 176 whose decoded states concatenated are the presence list (0 missing, 1..10 on, 11..252 missing, 253 on) followed by padding.", "quantifier": "every request address and state", "why_tests_cant": "content of a generated multi-message reply for every group address", "anchors": ["cbus/protocol/pciserverprotocol.py:PCIServerProtocol.on_master_application_status"]}
{"id": "C38", "title": "In smart mode a master-application status request makes the emulator raise and wedge", "statement": "In smart mode, receiving a master-application binary status request raises NotImplementedError out of data_received with the request left at the head of the buffer, so every later data_received raises again (without overflow); commands preceding it in the same packet are handled again each time.", "quantifier": "every smart-mode state, every such packet, every later chunk", "why_tests_cant": "all histories", "anchors": ["cbus/protocol/pciserverprotocol.py:PCIServerProtocol.on_master_application_status", "cbus/protocol/buffered_protocol.py:BufferedProtocol._process_buffer"]}
{"id": "C39", "title": "Clock requests are answered according to handle_clock_requests, except by the MQTT handler", "statement": "A PCIProtocol answers each received clock request with one clock update packet (current date then time) exactly when handle_clock_requests is true; the cmqttd handler answers every clock request regardless of that setting (the --no-clock option has no effect).", "quantifier": "every state and every received packet", "why_tests_cant": "all packets and states", "anchors": ["cbus/protocol/pciprotocol.py:PCIProtocol.on_clock_request", "cbus/daemon/cmqttd.py:CBusHandler.on_clock_request"]}
{"id": "C40", "title": "MQTT topics identify group addresses", "statement": "For every group address the set, state, config, sensor-state and sensor-config topics are pairwise distinct across kinds and addresses (any integers); get_topic_group_address inverts set/state/conf topics for 0..255, raises ValueError for those of other integers, and for any topic returns only values in 0..255 and only when the topic starts with the light prefix.", "quantifier": "every integer address, every ASCII topic string", "why_tests_cant": "unbounded strings and integers", "anchors": ["cbus/daemon/cmqttd.py:get_topic_group_address", "cbus/daemon/cmqttd.py:set_topic", "cbus/daemon/cmqttd.py:state_topic", "cbus/daemon/cmqttd.py:conf_topic", "cbus/daemon/cmqttd.py:bin_sensor_state_topic", "cbus/daemon/cmqttd.py:bin_sensor_conf_topic"]}
{"id": "C41", "title": "An MQTT set message becomes exactly one C-Bus command and a matching state report", "statement": "For a valid set topic and JSON object payload: state (case-insensitively) ON with brightness 255 (or absent) and transition 0 (or absent/negative) sends lighting-on; ON otherwise sends a ramp to min(brightness,255) over the given transition; anything else sends lighting-off; then exactly one JSON state message and one binary-sensor message are published retained at QoS 1 on the topics of that group, with the brightness just sent. If the C-Bus write raises, nothing is published.", "quantifier": "every group address, every JSON payload, every protocol state", "why_tests_cant": "all JSON values", "anchors": ["cbus/daemon/cmqttd.py:MqttClient.on_message"]}
{"id": "C42", "title": "MQTT messages that are not valid commands have no effect", "statement": "on_message does nothing (no C-Bus write, no publish) for a topic that is not a light set topic, whose group address is not an integer 0..255, or whose payload is not JSON; it raises without effect when the payload is not an object, lacks a string state, or has a non-numeric brightness/transition; and a negative brightness with state ON raises TypeError (defect: clamped to float 0.0) without writing or publishing.", "quantifier": "every topic and payload", "why_tests_cant": "all inputs", "anchors": ["cbus/daemon/cmqttd.py:MqttClient.on_message"]}
{"id": "C43", "title": "C-Bus lighting events are relayed to MQTT faithfully", "statement": "Each lighting on/off/ramp event received while an MQTT client is attached publishes exactly two retained QoS-1 messages on that group's topics carrying source address, level and duration; without a client, nothing. The light state and the binary sensor agree except for a ramp to level 0, where the light is reported ON and the sensor OFF. Terminate-ramp publishes nothing.", "quantifier": "every event and state", "why_tests_cant": "all events and histories", "anchors": ["cbus/daemon/cmqttd.py:CBusHandler", "cbus/daemon/cmqttd.py:MqttClient.lighting_group_on", "cbus/daemon/cmqttd.py:MqttClient.lighting_group_off", "cbus/daemon/cmqttd.py:MqttClient.lighting_group_ramp"]}
{"id": "C44", "title": "Application registry does not depend on registration order", "statement": "Registering the five applications in any order (set iteration order is unspecified) succeeds and gives the same lookup: 0x19 temperature, 0x30..0x5f lighting, 0xcb enable, 0xdf clock, 0xff status request, KeyError otherwise. A failing registration leaves the registry unchanged; re-registering is idempotent; every id of the Application enum has a handler.", "quantifier": "every registration order, every id, every registry history", "why_tests_cant": "all permutations and histories", "anchors": ["cbus/protocol/application/__init__.py:_register_application", "cbus/protocol/application/__init__.py:get_application"]}
{"id": "C45", "title": "A point-to-multipoint packet only ever holds commands of its own application", "statement": "Over any history of construction, append_sal and clear_sal calls, all commands in the packet belong to the packet's application; append_sal of a foreign command raises ValueError and changes nothing; clear_sal empties the packet and allows any application again; the held commands are exactly those successfully appended since the last clear, in order.", "quantifier": "every call history", "why_tests_cant": "unbounded histories", "anchors": ["cbus/protocol/pm_packet.py:PointToMultipointPacket.append_sal", "cbus/protocol/pm_packet.py:PointToMultipointPacket.clear_sal"]}
{"id": "C46", "title": "Lighting traffic on any application id other than 0x38 is rejected", "statement": "A packet addressed to lighting application 0x30..0x5f other than 0x38 decodes to a packet only if no lighting command can be decoded from it; as soon as one is decoded the whole packet becomes InvalidPacket with ValueError, for every payload.", "quantifier": "every lighting application id, every payload", "why_tests_cant": "all payloads", "anchors": ["cbus/protocol/pm_packet.py:PointToMultipointPacket.decode_packet", "cbus/protocol/application/lighting.py:LightingSAL.application"]}
{"id": "C47", "title": "Self-described CAL lengths", "statement": "The first byte of an encoded reply CAL is 0x80 plus the number of bytes that follow it, for every payload. The first byte of an extended status CAL is 0xE0 plus the number of bytes that follow it modulo 32, so the length is right exactly for reports of at most 28 bytes; a longer report (up to 252 bytes) announces too short a length, and a report of more than 252 bytes raises ValueError. For a standard status CAL with a report of at most 28 bytes the first byte is 0xC0 plus one more than the number of bytes that follow; with a report of 29 to 60 bytes it is an extended-status command byte instead.", "quantifier": "every report length", "why_tests_cant": "unbounded reports", "anchors": ["cbus/protocol/cal/extended.py:ExtendedCAL.encode", "cbus/protocol/cal/standard.py:StandardCAL.encode", "cbus/protocol/cal/reply.py:ReplyCAL.encode"]}
{"id": "C48", "title": "Client and emulator complete the handshake under every fragmentation", "statement": "If a fresh client connects to a fresh emulator and the client's bytes are delivered in order under any fragmentation (without overflow), the emulator ends in smart mode with connect, checksum and idmon on and monitor off, having confirmed the three configuration commands in order.", "quantifier": "every fragmentation of the byte stream", "why_tests_cant": "all fragmentations", "anchors": ["cbus/protocol/pciprotocol.py:PCIProtocol.pci_reset", "cbus/protocol/pciserverprotocol.py:PCIServerProtocol"]}
{"id": "C49", "title": "Project labels", "statement": "read_cbz_labels returns labels only if there is exactly one non-bridge network with exactly one lighting application 0x38; then address a maps to the trimmed name of the last group with address a whose trimmed name is neither empty, '<Unused>' nor 'Group a', and nothing else is labelled. A network without an interface element, or a lighting group without a name, raises AttributeError.", "quantifier": "every project structure", "why_tests_cant": "unbounded projects", "anchors": ["cbus/daemon/cmqttd.py:read_cbz_labels"]}
{"id": "C50", "title": "Header flags are faithful except for the reserved field", "statement": "For every destination type, device-management flag and priority class the flags byte encodes all three without overlap and decode recovers them; of the two-bit reserved counter rc only the high bit is encoded (bit 4), rc=1 is lost.", "quantifier": "every field combination (any integers)", "why_tests_cant": "integer fields of any size are masked", "anchors": ["cbus/protocol/base_packet.py:BasePacket.flags", "cbus/protocol/packet.py:decode_packet"]}
{"id": "C51", "title": "Discovery configuration is complete and unambiguous", "statement": "On every MQTT connection the daemon subscribes to exactly the 256 set topics at QoS 2 and publishes, for every group address, one light and one sensor configuration plus one for the daemon itself, on pairwise distinct topics; each light configuration's command and state topics are the ones on_message and the relays use; names come from the label if there is one, otherwise 'C-Bus Light NNN'. No two of these announcements have the same unique id or device identifier, and the device of every group is reached through the daemon's own.", "quantifier": "every label mapping", "why_tests_cant": "all label mappings", "anchors": ["cbus/daemon/cmqttd.py:MqttClient.on_connect", "cbus/daemon/cmqttd.py:MqttClient.publish_all_lights"]}
{"id": "C52", "title": "Connection loss", "statement": "After connection_lost every command call raises (IOError, unless its arguments are already rejected) and nothing at all is written until the next connection; the loss is signalled exactly once, a second loss raises InvalidStateError, and without a configured future connection_lost raises after the transport was already dropped. Partial input and the confirmation counter survive a reconnect.", "quantifier": "every history", "why_tests_cant": "unbounded histories", "anchors": ["cbus/protocol/pciprotocol.py:PCIProtocol.connection_lost", "cbus/protocol/pciprotocol.py:PCIProtocol._send"]}
{"id": "C53", "title": "Streams of PCI messages are recovered exactly", "statement": "Any sequence of messages serialised by the emulator (confirmations, '++', '!', packets with a source address 1..255) delivered to a client in smart mode under any fragmentation is decoded to exactly those messages in that order ('++' as two power-on notifications), with nothing left in the buffer.", "quantifier": "every message sequence and fragmentation", "why_tests_cant": "unbounded sequences, all fragmentations", "anchors": ["cbus/protocol/pciserverprotocol.py:PCIServerProtocol._serialize_packet", "cbus/protocol/packet.py:decode_packet", "cbus/protocol/buffered_protocol.py:BufferedProtocol"]}
{"id": "C54", "title": "Streams of client commands are recovered exactly by the emulator", "statement": "Any sequence of client API calls (identification requests being for one of the eighteen named attributes), sent from the handshake on to an emulator with checksums enabled under any fragmentation without overflow, is decoded to exactly those requests in that order, and each one except the identification requests (for which the emulator has no reply) is confirmed with its own code, in order.", "quantifier": "every call sequence and fragmentation", "why_tests_cant": "unbounded sequences, all fragmentations", "anchors": ["cbus/protocol/pciprotocol.py:PCIProtocol", "cbus/protocol/pciserverprotocol.py:PCIServerProtocol"]}
{"id": "C55", "title": "Local echo hides replies from the package's own client", "statement": "While the emulator is in basic mode its echo of a command is not terminated by CRLF, so the client's decoder consumes nothing from the echo and the confirmation following it; the confirmations of the configuration commands are never reported to the client as confirmations, whatever CRLF-terminated line comes next.", "quantifier": "every continuation of the stream", "why_tests_cant": "all continuations", "anchors": ["cbus/protocol/pciserverprotocol.py:PCIServerProtocol.echo", "cbus/protocol/pciprotocol.py:PCIProtocol.handle_cbus_packet", "cbus/protocol/packet.py:decode_packet"]}
{"id": "C56", "title": "Encoded day of week is the true day of week", "statement": "The day-of-week byte of an encoded date is 0..6 and advances by one modulo 7 from every valid date to the next calendar day, across month, leap-year, century and 400-year boundaries; 1 January 2024 is 0 (Monday), so every date has its true day of week.", "quantifier": "every pair of consecutive valid dates in years 1..9999", "why_tests_cant": "3.65 million dates", "anchors": ["cbus/protocol/application/clock.py:ClockUpdateSAL.encode"]}
{"id": "C57", "title": "Control messages are decoded exactly", "statement": "From a PCI, '+' is a power-on notice (one byte), '!' an error (one byte) and a confirmation code followed by any byte a confirmation (two bytes) that is successful exactly when that byte is '.'; to a PCI, '~' is a reset (one byte), 'null' is skipped (four bytes), '|' or '||' before CR is a smart-connect request, and everything up to a '?' before the first CR is skipped; this holds whatever follows and whatever the checksum and strictness settings.", "quantifier": "every continuation of the stream and every setting", "why_tests_cant": "all continuations", "anchors": ["cbus/protocol/packet.py:decode_packet"]}
{"id": "C58", "title": "The emulator is the documented state machine", "statement": "Over any history of calls and received data after a connection, what the emulator writes, the methods it calls, what it raises and what it keeps in its buffer are those of a small state machine over the packets received so far: every complete message is consumed in order and exactly once, its commands are passed to the on_* methods in order up to the first that is not understood, and an exception leaves the message in the buffer. The rules leave no choice: two such runs with the same history write the same, call the same methods, keep the same and have the same results (but for which of two exceptions reports bytes that cannot be decoded).", "quantifier": "every history of calls and every fragmentation", "why_tests_cant": "unbounded histories", "anchors": ["cbus/protocol/pciserverprotocol.py:PCIServerProtocol", "cbus/protocol/cbus_protocol.py:CBusProtocol.handle_data", "cbus/protocol/buffered_protocol.py:BufferedProtocol.data_received"]}
{"id": "C59", "title": "Decoded messages always have valid fields", "statement": "Whatever bytes arrive and whatever the settings, every message the decoder returns has valid fields (group addresses and levels 0..255, durations of the sixteen ramp rates, priority classes, hours, dates and applications in range, confirmation codes from the table, except that a command read with strict=False may carry any other byte as its code), and every on_* method of the client is called only with such arguments.", "quantifier": "every byte stream, every decoder setting, every client state", "why_tests_cant": "all inputs", "anchors": ["cbus/protocol/packet.py:decode_packet", "cbus/protocol/pm_packet.py:PointToMultipointPacket.decode_packet", "cbus/protocol/pciprotocol.py:PCIProtocol.handle_cbus_packet"]}
{"id": "C60", "title": "Every message the client writes is at most 47 bytes long", "statement": "Whatever calls are made on a client, with whatever arguments and whatever data it receives, no single write to the transport is longer than 47 bytes (backslash, 44 base16 digits, a confirmation code and CR); nine group addresses in one call attain the bound.", "quantifier": "every history of calls, every argument and every received byte stream", "why_tests_cant": "unbounded histories and arguments", "anchors": ["cbus/protocol/pciprotocol.py:PCIProtocol._send", "cbus/protocol/pciprotocol.py:PCIProtocol.lighting_group_on"]}
{"id": "C61", "title": "What the broker retains is the latest lighting event of each group", "statement": "Over any history of the daemon (C-Bus connections, losses and data in any fragmentation, clock ticks, broker connections, MQTT messages), the messages on the light and sensor state topics are, in order, exactly the reports of the lighting commands seen on the C-Bus since the first broker connection and of the MQTT orders accepted while the C-Bus was connected. So for every group the broker retains, on the light topic and on the sensor topic, the report of its latest event and nothing if there was none, and the retained sensor is ON exactly if the retained brightness is positive.", "quantifier": "every history of C-Bus and MQTT calls", "why_tests_cant": "unbounded interleavings of two connections", "anchors": ["cbus/daemon/cmqttd.py:CBusHandler", "cbus/daemon/cmqttd.py:MqttClient.on_message", "cbus/daemon/cmqttd.py:MqttClient.lighting_group_ramp"]}
{"id": "C62", "title": "The daemon publishes only on its own topics and cannot trigger itself", "statement": "Over any history, every message the daemon publishes is retained, at QoS 1, on the meta configuration topic or on a state or configuration topic of a group 0..255; none of these is a command topic, so delivering it back to the daemon has no effect. It subscribes exactly once per connection to the broker, to exactly the 256 command topics at QoS 2. The state topic it announces for itself is one of the topics it never publishes on.", "quantifier": "every history of C-Bus and MQTT calls", "why_tests_cant": "unbounded histories", "anchors": ["cbus/daemon/cmqttd.py:MqttClient.publish", "cbus/daemon/cmqttd.py:MqttClient.on_connect", "cbus/daemon/cmqttd.py:MqttClient.on_message"]}
{"id": "C63", "title": "Only MQTT orders become lighting commands on the C-Bus", "statement": "Over any history, the lighting commands in what the daemon writes to the PCI are, in order, exactly those asked for by the valid MQTT orders received while the C-Bus was connected; nothing seen on the C-Bus, no clock tick and no connection leads to one.", "quantifier": "every history of C-Bus and MQTT calls", "why_tests_cant": "unbounded histories", "anchors": ["cbus/daemon/cmqttd.py:MqttClient.on_message", "cbus/daemon/cmqttd.py:CBusHandler", "cbus/protocol/pciprotocol.py:PCIProtocol._send"]}
{"id": "C64", "title": "Elements of a project file are read field by field", "statement": "For every XML element and every class of project files, from_element gives each field its value in the element: a sequence field all children of that name in document order, any other field the last child of that name, failing that the attribute of that name, failing that None (names compare without case, underscores and final s; an element without text is the text 'None'). It succeeds exactly if everything in the element bearing a field's name can be read, all the way down a schema that lists for each kind of element its texts, numbers, identifiers, dates and parts; otherwise it raises ValueError or TypeError; attributes and children of other names, the element's own name and text do not matter.", "quantifier": "every XML element tree and every class", "why_tests_cant": "unbounded trees", "anchors": ["cbus/toolkit/cbz.py:_Element.from_element", "cbus/toolkit/cbz.py:_Element._normalise_name"]}
{"id": "C65", "title": "Names announced for groups come from the project file", "statement": "For every project file that loads, read_cbz_labels sees exactly the networks, applications and groups the document's last Project element describes (AttributeError if it has none). So if it describes one direct network with one lighting application, every group 0..255 is announced with the trimmed name of the last group element with its address and a chosen name, otherwise with 'C-Bus Light NNN'.", "quantifier": "every document and file", "why_tests_cant": "unbounded documents", "anchors": ["cbus/toolkit/cbz.py:CBZ", "cbus/daemon/cmqttd.py:read_cbz_labels", "cbus/daemon/cmqttd.py:MqttClient.publish_all_lights"]}
{"id": "C66", "title": "Which project files load", "statement": "A project loads exactly if it is an archive whose single member is named *.xml, or an XML document given by its file name, and the document is readable. An archive with another number of members or another name raises CBZException; an XML document given as an open file, as the daemon gives it, always raises ParseError although the daemon's help offers XML; an unreadable document raises ValueError or TypeError.", "quantifier": "every file", "why_tests_cant": "all files", "anchors": ["cbus/toolkit/cbz.py:CBZ.__init__", "cbus/daemon/cmqttd.py:read_cbz_labels"]}
{"id": "C67", "title": "A dump shows the last element of each address", "statement": "For every project, dump_labels writes an object with exactly one entry per network address, in it one per application, group and unit address, each showing the name and fields of the last element with that address; the groups of a unit are the hexadecimal numbers after the first two characters of each word of its GroupAddress parameters, in order. It fails exactly if such a parameter has no value or a word that is not hexadecimal.", "quantifier": "every project", "why_tests_cant": "unbounded projects", "anchors": ["cbus/toolkit/dump_labels.py:main"]}
{"id": "C68", "title": "The graph links every unit to its channels", "statement": "For every project whose dump succeeds, generate_graph of the dump gives one subgraph per network address with a node per unit and per channel, and an edge from a unit to a group exactly if the group is one of the unit's channels and not 255; the unused channel 255 is a node without edges. Any other JSON document in which every network has units and every unit a name and whole numbers as groups is drawn in the same way, network by network in its order; one in which a part is missing, is no object, or has groups that cannot be gone through is not drawn.", "quantifier": "every project, every JSON document", "why_tests_cant": "unbounded projects and documents", "anchors": ["cbus/toolkit/graph.py:generate_graph", "cbus/toolkit/dump_labels.py:main"]}
{"id": "C69", "title": "The emulator does not care how commands are cut into chunks, except for bare CALs", "statement": "Every byte stream divides in one way into commands (a reset, 'null', a line up to CR, or the part of a line up to a '?') and an incomplete rest. If none of the commands is a CAL without addressing, the emulator ends in the same state and writes and calls the same however the stream is cut into chunks, as long as no exception is raised, and what stays in its buffer is the incomplete rest; a stream that fits the buffer and raises nothing at once raises nothing in any chunks. A CAL without addressing swallows following bytes only as far as they have arrived, so with one the outcome depends on the chunks.", "quantifier": "every byte stream and every two ways to cut it", "why_tests_cant": "unbounded streams and fragmentations", "anchors": ["cbus/protocol/pciserverprotocol.py:PCIServerProtocol", "cbus/protocol/buffered_protocol.py:BufferedProtocol.data_received", "cbus/protocol/cbus_protocol.py:CBusProtocol.handle_data"]}
{"id": "C70", "title": "The daemon starts in the order and with the security its options ask for", "statement": "For all options and however the environment behaves, the daemon does exactly one sequence: it connects to the serial device (9600 baud) or to the host and port of -t, sets the trimmed first two lines of the authentication file as credentials if there is one, turns TLS on with the given CA, certificate and key unless TLS is disabled, and only then contacts the broker at the given address and port (default 8883, or 1883 without TLS); it stops at the first step that fails. So the broker is never contacted without TLS unless that was asked for, and never before the interface is connected. A certificate without key or key without certificate ends it before any connection is opened. Without TLS the certificate options have no effect. The port of -t is the text between the first two colons, so an IPv6 address cannot be given.", "quantifier": "every combination of options, every project and authentication file, every failure of the environment", "why_tests_cant": "all options and failures", "anchors": ["cbus/daemon/cmqttd.py:_main", "cbus/daemon/cmqttd.py:read_auth"]}
{"id": "C71", "title": "The MQTT client is driven exactly while it has a connection", "statement": "For every history of callbacks, socket events and task steps: the helper calls loop_read for a readable socket exactly if the last callback about it opened it, and loop_write for a writable one exactly if the last callback about writing asked for it. The maintenance loop of an opening calls loop_misc exactly until a closing comes before the next opening or a call fails. So when openings and closings alternate only the open connection's loop runs, and none after it is closed; two openings in a row leave a loop running for ever. A closing before any opening raises AttributeError.", "quantifier": "every history of callbacks and event loop steps", "why_tests_cant": "unbounded schedules", "anchors": ["cbus/paho_asyncio.py:AsyncioHelper"]}
{"id": "C72", "title": "The emulator announces exactly the event asked for, and only a checksummed one is heard", "statement": "Each of the emulator's lighting methods, send_error and send_confirmation either writes exactly one message followed by everything deferred, or raises and changes nothing; which, and what, depends only on the arguments and the checksum mode. A lighting call raises ValueError exactly if the group or the level is out of range and TypeError for a level that is not an integer (the documented default 1.0 included); otherwise its line is the unit's source (modulo 256), the lighting application and the one command. With checksums on, the package's client makes exactly one callback for the line, with that group, level and source and the duration rounded up (source 0 is reported as unknown); with checksums off it makes none.", "quantifier": "every reachable emulator state, every argument, every client state and continuation of the stream", "why_tests_cant": "all arguments and states", "anchors": ["cbus/protocol/pciserverprotocol.py:PCIServerProtocol.lighting_group_on", "cbus/protocol/pciserverprotocol.py:PCIServerProtocol.lighting_group_ramp", "cbus/protocol/pciserverprotocol.py:PCIServerProtocol._send", "cbus/protocol/pciprotocol.py:PCIProtocol.handle_cbus_packet"]}
{"id": "C73", "title": "A client and an emulator connected to each other, under every schedule", "statement": "A client connected to an emulator by a byte stream in each direction, under any interleaving of calls on both objects (a reset included) and of deliveries in pieces of any size (at most 210 bytes at a time towards the emulator): each object behaves as it does alone on the bytes it receives. The emulator accepts every piece; at any time it has acted on exactly a prefix of the client's requests, in order, and confirmed exactly those of them that are due a confirmation; once nothing is under way it has acted on all and is in the modes the handshake sets. As long as the client drops no piece, the callbacks the client has made are exactly the beginning of those determined by the emulator's messages: confirmations, errors and checksummed events are reported, and after the echo of a command everything up to and including the next line is lost; once nothing is under way it has made all of them. It can drop pieces: a hundred and ten commands are enough if the emulator only confirms. The requests are determined by the calls and their effects: for each clock update the client wrote by itself exactly one, that one, is received.", "quantifier": "every schedule of calls and deliveries of any length", "why_tests_cant": "interleavings in two directions are unbounded", "anchors": ["cbus/protocol/pciprotocol.py:PCIProtocol", "cbus/protocol/pciserverprotocol.py:PCIServerProtocol", "cbus/protocol/buffered_protocol.py:BufferedProtocol.data_received"]}
{"id": "C74", "title": "Time synchronisation: rate, freshness and lifetime", "statement": "With timesync_frequency f > 0, in any period of length T the client's periodic tasks write at most T/f + 1 clock updates for every connection made so far; each update carries the time read in that very round. While a connection lasts and the event loop is at most a given lag late, the last update is never older than f seconds plus the lag. A round without a connection writes nothing and ends its task for good. With f = 0 there is no task, with f < 0 none writes. (Exact behaviour: a connection lost and made again within a period leaves the earlier task alive, so that there are two updates per period from then on.)", "quantifier": "every history of calls, rounds and passing of time", "why_tests_cant": "all interleavings over unbounded time", "anchors": ["cbus/protocol/pciprotocol.py:PCIProtocol.timesync", "cbus/protocol/pciprotocol.py:PCIProtocol.connection_made", "cbus/protocol/pciprotocol.py:PCIProtocol.connection_lost", "cbus/protocol/pciprotocol.py:PCIProtocol.clock_datetime"]}
{"id": "C75", "title": "MQTT clients and the C-Bus learn from each other through the daemon, under every schedule", "statement": "The daemon connected to an emulated PCI, under any interleaving of MQTT events, timer rounds, announcements by units and deliveries in pieces of any size (at most 210 bytes at a time towards the emulator): the emulator accepts every piece, and the lighting commands it has acted on are exactly the beginning of what command messages asked for, in order, once each, and nothing else; once nothing is under way it has acted on all. As long as the daemon drops no piece, its callbacks are exactly the beginning of those determined by the emulator's messages, and all of them once nothing is under way. So once nothing is under way, and if MQTT was connected at the start and nothing was dropped, for each light the broker retains the report of the last thing that happened to it, seen on the C-Bus or asked for over MQTT.", "quantifier": "every schedule of MQTT messages, calls and deliveries of any length", "why_tests_cant": "interleavings of three parties are unbounded", "anchors": ["cbus/daemon/cmqttd.py:MqttClient.on_message", "cbus/daemon/cmqttd.py:CBusHandler", "cbus/protocol/pciprotocol.py:PCIProtocol", "cbus/protocol/pciserverprotocol.py:PCIServerProtocol"]}
{"id": "C76", "title": "Fetching the documentation: which requests, which files, and taking up an interrupted run", "statement": "download_docs asks only the manufacturer's server, whatever the page says and however often it is called. Wherever the process is stopped, even in the middle of a write: a file that was there keeps its contents; a new file has a name ending in .pdf, is at the place of a document of that server below a destination of a call, and begins like the server's answer for that document; in one call at most one new file is not whole. A call that returns has requested the terms, the index, and in the order of the page each document whose file was missing, once, at the address the link has; all documents are then on the disk. A run that was stopped, but not while filling a file, and started again leaves the files that an undisturbed run leaves, if the server's answers are the same. A file is directly in the destination, with the name the link spells, unless that name contains an escaped slash. The name is, for every link, what the last part of its path stands for: escapes are bytes, the bytes are UTF-8, and each damaged piece of UTF-8 becomes one replacement character. (Exact behaviour: an escaped slash leads out of the destination; a file cut short is never repaired; a second call in the same process fetches the documents of the first page again.)", "quantifier": "every page, server behaviour, disk, sequence of calls and point at which the process is stopped", "why_tests_cant": "all pages, faults and crash points", "anchors": ["cbus/tools/fetch_protocol_docs.py:DocumentationParser", "cbus/tools/fetch_protocol_docs.py:download_file", "cbus/tools/fetch_protocol_docs.py:download_docs"]}
{"id": "C77", "title": "The command line of the daemon means what its options say", "statement": "For a command line made of options in any of the usual spellings (--name value, --name=value, -x value, -x=value, -xvalue, flags; a long name may be cut to a beginning that no other long option has; in one word the letter C of the flag may be repeated and that of an option may follow, as in -CCs/dev/ttyUSB0; a value that is a word of its own does not begin with a dash unless it is - or a negative whole number), in any order and with repetitions: the daemon starts with exactly the values asked for (the last one given counts, otherwise the default), if every number is an integer numeral, every file can be read, the verbosity is a known one, the broker is named and exactly one interface is; in every other case it refuses with a usage error. With -h or --help before such a command line it does nothing but print the help. For any words at all: a word that begins two long options without being one (before any --) makes it refuse with a usage error; accepted options always name a broker and exactly one interface; TLS is off exactly if one of the words is --broker-disable-tls or an unambiguous beginning of it; without such a word the broker is contacted only after TLS has been set up successfully, with one TLS is never set up.", "quantifier": "every list of command line words, every content of the files, every outcome of the calls made while starting", "why_tests_cant": "the set of command lines is infinite", "anchors": ["cbus/daemon/cmqttd.py:_main"]}
{"id": "C78", "title": "The environment of the container and what the daemon does", "statement": "The container's start script gives up exactly if MQTT_SERVER is unset or empty or both SERIAL_PORT and CNI_ADDR are. If the values contain no white space or pattern characters and do not begin with a dash, the daemon is started with exactly what the variables and the mounted files ask for (serial port before CNI, port, time synchronisation with default 300, clock, CA directory, client certificate and key only together, login, project), or refuses with a usage error if a value is not a number or a mounted file cannot be read. If no value has a word that begins with a dash, the broker is contacted only after TLS has been set up, provided MQTT_USE_TLS is unset, empty or 1. If MQTT_USE_TLS is anything else (also true or yes), TLS is never set up. (Exact behaviour: the values are not quoted, so that a word asking for a connection without TLS in any of the values passed on, separated by a space, a tab or a line break, switches TLS off.)", "quantifier": "every environment, every set of mounted files and their contents, every outcome of the calls made while starting", "why_tests_cant": "all environments and file contents", "anchors": ["entrypoint-cmqttd.sh", "cbus/daemon/cmqttd.py:_main"]}
{"id": "C79", "title": "The bytes of a command message: any spelling of the JSON counts, anything else is ignored", "statement": "For every payload of bytes, the daemon takes it for the value v exactly if the bytes are, in UTF-8, UTF-16 or UTF-32 (in either byte order, with or without a byte order mark), a JSON document for v in the grammar of RFC 8259 extended by NaN, Infinity and -Infinity, nested no deeper than the interpreter allows; of a repeated field the last value counts, and no bytes stand for two values. A message on a command topic whose payload asks for something in any spelling (white space, escapes, order, repeated or unknown fields) makes the daemon, while it is connected to the C-Bus, send exactly the one command asked for and report it; a payload that is no such document, and one that asks for nothing, sends and publishes nothing.", "quantifier": "every topic, every sequence of bytes, every state of the client", "why_tests_cant": "the set of payloads is infinite", "anchors": ["cbus/daemon/cmqttd.py:MqttClient.on_message"]}
{"id": "C80", "title": "What the daemon publishes is printable ASCII that reads back as the values meant", "statement": "In every history of the daemon, for every set of labels without half surrogate pairs, the payload of every message published consists of the characters from space to tilde only; a JSON payload is a JSON document for exactly the value meant (so reading it back gives that value), and any other payload is ON or OFF.", "quantifier": "every history of the daemon, all labels", "why_tests_cant": "unbounded histories and arbitrary label texts", "anchors": ["cbus/daemon/cmqttd.py:MqttClient.publish", "cbus/daemon/cmqttd.py:MqttClient.publish_all_lights", "cbus/daemon/cmqttd.py:CBusHandler"]}
{"id": "C81", "title": "The example scripts and the daemon work together", "statement": "Whatever /bin/sh is (with or without the [[ command): cbus_on and cbus_off, given a group address 0..255 in plain decimal, make the connected daemon send exactly the on or off command for that group and report it; cbus_ramp with whole numbers ramps to the level (at most 255) over the duration, or switches on for level 255 without a duration; a negative level, a first argument that is not such an address, and a duration or level that is missing, has a superfluous zero, a sign +, no digit before the point or a letter other than e directly after a whole number change nothing at the daemon. cbus_listen subscribes to the state topic of its group: in every history of the daemon what it prints are the JSON states of lights; cbus_config prints only the discovery message of its group, with the group's name. A shell with [[ prints the usage exactly if an argument the script needs is missing or empty (cbus_ramp needs three); one without never does. The arguments of cbus_ramp are put into the payload as they are: a third argument can turn it into an off command.", "quantifier": "every list of arguments, both kinds of shell, every state and history of the daemon", "why_tests_cant": "all arguments and histories", "anchors": ["scripts/cbus_on", "scripts/cbus_off", "scripts/cbus_ramp", "scripts/cbus_listen", "scripts/cbus_config", "cbus/daemon/cmqttd.py:MqttClient.on_message"]}
{"id": "C82", "title": "The dump of a project is a JSON file from which the graph is drawn, whatever the indentation", "statement": "For every project whose texts are sequences of characters, as everything read from XML is: a successful run of dump_labels writes one text of printable ASCII characters and new lines. It is a JSON document for the value that shows the project; without an indentation (or 0) it is one line, with an indentation of N every line begins with N spaces for each bracket still open there. The graph program run on the file just written draws exactly the graph of the project: one subgraph per network, nodes for its units and channels, edges for the channels in use.", "quantifier": "every project, indentation and content of the disk", "why_tests_cant": "unbounded projects with arbitrary texts", "anchors": ["cbus/toolkit/dump_labels.py:main", "cbus/toolkit/graph.py:main", "cbus/toolkit/graph.py:generate_graph"]}
{"id": "C83", "title": "What a failed or killed dump leaves behind", "statement": "A run of dump_labels that fails because of a negative indentation, a project that cannot be loaded or an output that cannot be opened leaves every file as it was. A project that loads but cannot be dumped (no Project element, or a GroupAddress parameter without value or not hexadecimal) leaves the output file empty, whatever it held before, and no other file changed. Killed at any point, even in the middle of a write, a run that would have succeeded (on a project whose texts are sequences of characters, as everything read from XML is) leaves the output file as it was, or complete, or with a beginning of the text, which the graph program refuses as no JSON document: it never draws part of a project. The graph program tells a document nested too deep from one that is no JSON document: the first is a JSON document, the second is not at any depth.", "quantifier": "every project, option, content of the disk and point at which the process is killed", "why_tests_cant": "all projects, failures and crash points", "anchors": ["cbus/toolkit/dump_labels.py:main", "cbus/toolkit/graph.py:main"]}
{"id": "C84", "title": "decode_packet cannot be given a packet", "statement": "Whatever its command line, the program decode_packet never gets to decoding: it shows the help, or refuses with a usage error. In particular a packet, with any of the options, is always refused. (Exact behaviour; the option is declared with a type that cannot be made of a text.)", "quantifier": "every list of command line words", "why_tests_cant": "the set of command lines is infinite", "anchors": ["cbus/tools/decode_packet.py:main"]}
{"id": "C85", "title": "The command lines of the other programs", "statement": "For a command line of plain words (without a dash at the start, except - and negative whole numbers) and options in any of the usual spellings (a long name may be cut to a beginning that no other long option of the program has), in any order and with repetitions: dump_labels runs with exactly the input, output and indentation asked for (the last one given counts) if there is one plain word and every indentation is an integer numeral, and otherwise refuses without touching a file; graph reads the file named by the one plain word (standard input for -) and writes to the output named, and refuses if the file cannot be read or no output is named; fetch_protocol_docs needs exactly one plain word, the directory; the test program of the client opens the serial device at 9600 baud or the TCP address HOST:PORT with exactly one colon and a numeral, fails with a ValueError for any other address (also every IPv6 address), waits without opening anything if the value is empty, and refuses unless exactly one of the two options is used; the emulator takes none, one or two plain words, by default 127.0.0.1 and 10001. A line that begins with -h or --help and goes on in the usual way shows the help and does nothing else, in each of these programs and in decode_packet. For any words at all: dump_labels, graph and fetch_protocol_docs start only with an input or a directory.", "quantifier": "every list of command line words, every content of the disk", "why_tests_cant": "the set of command lines is infinite", "anchors": ["cbus/toolkit/dump_labels.py:main", "cbus/toolkit/graph.py:main", "cbus/tools/fetch_protocol_docs.py:main", "cbus/protocol/pciprotocol.py:main", "cbus/protocol/pciserverprotocol.py:main"]}
{"id": "C86", "title": "The serial redirector copies bytes unchanged in both directions", "statement": "Without newline conversion, under every interleaving of its two threads, pieces of any size and any number of connections one after the other: as long as no call fails, what was sent to the clients, one after the other, is exactly the beginning of what came from the serial port, and while the peer of a connection has not closed it the threads can bring out all of it; what was written to the serial port is, for each connection in turn, the beginning of what arrived on it, and all of it once the connection is closed. Whatever calls fail, bytes may be missing but none is added, repeated or moved. (Exact behaviour: an error while the serial port is read silently ends the copying to the client although the connection stays open; a client also gets what the PCI sent before it connected.)", "quantifier": "every schedule of the two threads, every stream of bytes, every sequence of connections and failures", "why_tests_cant": "thread interleavings and streams are unbounded", "anchors": ["scripts/tcp_serial_redirect.py:Redirector.reader", "scripts/tcp_serial_redirect.py:Redirector.writer", "scripts/tcp_serial_redirect.py:Redirector.shortcut"]}
{"id": "C87", "title": "The serial redirector serves one connection at a time", "statement": "Under every schedule and whatever fails: a connection is accepted only after all earlier ones were closed; bytes are sent only on the connection that is open, and written to the serial port only while there is one; each is closed at most once; nothing happens after the end of the program. Once its peer has closed a connection, the threads can always bring it to its end, so that the next can be accepted.", "quantifier": "every schedule of the two threads, every sequence of connections and failures", "why_tests_cant": "thread interleavings are unbounded", "anchors": ["scripts/tcp_serial_redirect.py:Redirector.writer", "scripts/tcp_serial_redirect.py:Redirector.reader", "scripts/tcp_serial_redirect.py"]}
{"id": "C88", "title": "Newline conversion of the serial redirector", "statement": "With --convert and if no call fails: the clients get pieces of what came from the serial port, each with every serial newline, looked for from the left, replaced by the network newline. If the serial newline is a single byte, the result is the conversion of the whole stream, however it was cut; if it is CR LF, so it is if no piece ends between the two bytes, and otherwise need not be: the same bytes can give different results. The other direction likewise converts, for each connection, pieces of what arrived on it. If the network newline is a single byte, as it is by default, this is the conversion of the whole of what arrived, however it was cut.", "quantifier": "every schedule, stream and way of cutting it into pieces", "why_tests_cant": "all streams and all ways of cutting them", "anchors": ["scripts/tcp_serial_redirect.py:Redirector.reader", "scripts/tcp_serial_redirect.py:Redirector.writer"]}
{"id": "C89", "title": "A client cannot tell the redirector from the PCI", "statement": "The histories of calls, effects and results that a client and a PCI (the emulator) can have at the two ends of the redirector, without newline conversion and without failures, are exactly those they can have at the two ends of one direct connection. In particular what the client asks for is received and acted upon in order, nothing else is, every piece (of at most 210 bytes) is accepted, and exactly what was received is confirmed unless the program on the emulator confirms by itself.", "quantifier": "every schedule of calls, deliveries and thread steps", "why_tests_cant": "interleavings of four parties are unbounded", "anchors": ["scripts/tcp_serial_redirect.py:Redirector", "cbus/protocol/pciprotocol.py:PCIProtocol", "cbus/protocol/pciserverprotocol.py:PCIServerProtocol", "docs/hacking.rst"]}
{"id": "C90", "title": "The discovery responder answers queries only and causes no storm", "statement": "The discovery responder sends exactly one datagram for each datagram that begins with CB 80 00 00, to the address it came from, in the documented layout, and nothing for any other datagram. With any number of responders, any datagrams on their way (also with forged senders) and any order of delivery, at most twice as many datagrams are ever delivered as were on their way at the start. (Exact behaviour: it announces port 10017, not the documented 10001, and answers to the port of the sender, not to port 20050.)", "quantifier": "every datagram, every set of responders and order of delivery", "why_tests_cant": "all datagrams and unbounded exchanges", "anchors": ["experiments/cni_discovery.py:CNIDiscoveryProtocol.datagramReceived", "experiments/cni_discovery.py:CNIDiscoveryProtocol.write", "docs/cni-discovery.rst"]}
{"id": "C91", "title": "The receive buffer may be fed from several threads", "statement": "If several threads call data_received of one protocol object at the same time, then under every interleaving the buffer never holds more than the limit, calls of handle_data never overlap, and no thread runs for ever. If handle_data does not call data_received of the same object, all threads can always finish, and the result is that of doing the parts of the calls one after the other: each chunk larger than the limit is refused, each one that does not fit when its turn comes is dropped with everything in the buffer, and any other is added, after which the buffer is worked off by the same thread, perhaps together with chunks of others. For a C-Bus client, if no call raises, effects, state and buffer are those of one thread that is given all the chunks in an order that keeps the order of each thread. (Exact behaviour: once handle_data has called data_received of its own object with a chunk that is not too large, nothing is received any more by any thread; and two chunks that cause no exception one after the other can both be lost when their calls overlap.)", "quantifier": "every handler, every number of threads and chunks, every interleaving", "why_tests_cant": "thread interleavings are unbounded and cannot be forced by a test", "anchors": ["cbus/protocol/buffered_protocol.py:BufferedProtocol.data_received", "cbus/protocol/buffered_protocol.py:BufferedProtocol._process_buffer"]}
{"id": "C92", "title": "Commands may be sent from several threads", "statement": "If several threads call the command methods of one client at the same time (the sending function takes no lock), then under every interleaving of its reads and writes of the object: every call writes exactly one whole line, with a code of the list if the packet gets one, and returns that code, or writes nothing and raises; the calls of one thread are served in its order; on a connection that nobody changes everything is written to it and the only exceptions are those of a packet that cannot be sent at all, and an IndexError; nobody waits for anybody; as soon as nobody is in a call the counter is in order again, and a call that no other overlaps does exactly what it does in a program of one thread. (Exact behaviour: overlapping calls can write the same code, and a call can fail with an IndexError although its packet is valid.)", "quantifier": "every number of threads and calls, every interleaving", "why_tests_cant": "thread interleavings are unbounded and cannot be forced by a test", "anchors": ["cbus/protocol/pciprotocol.py:PCIProtocol._send", "cbus/protocol/pciprotocol.py:PCIProtocol._get_confirmation_code"]}
{"id": "C93", "title": "The MQTT daemon stopped anywhere and started again", "statement": "However often the daemon is stopped, each time between any two of its effects and with any of the last messages lost on their way, and started again, possibly with other options: of each life the broker knows exactly a beginning of what happened to the lights, with at most one entry of which it has the message for the light but not yet that for the sensor; the lighting commands written to the C-Bus are those ordered, in order, up to some point, include everything the broker knows of, and go at most one order beyond that if no message was lost; without a stop nothing is missing. What the broker retains for a light is the message for the latest entry known over all lives, and for its sensor that of the latest entry known in full; a group of which the broker was never left with half a report, or has had a whole one since, has light and sensor in agreement. A life in which nothing happens to the lights changes nothing of what is retained for them. (Exact behaviour: an order carried out but not reported before a stop leaves the broker with the previous state, and a half report leaves light and sensor contradicting each other, until something happens to that group again, since the daemon does not ask the C-Bus for its state.)", "quantifier": "every number of lives, every history of calls in each, every point at which one is stopped", "why_tests_cant": "all crash points of unbounded histories", "anchors": ["cbus/daemon/cmqttd.py:_main", "cbus/daemon/cmqttd.py:MqttClient", "cbus/daemon/cmqttd.py:CBusHandler"]}
{"id": "C94", "title": "A client finds its way back after noise", "statement": "Whatever bytes a connected client has in its buffer: once more than 256 + L bytes of telegrams of at most L <= 256 bytes (messages of the network, forwarded by the PCI as lines) have arrived, each by a call of its own, its buffer is empty, and all further telegrams are treated as if there had been no noise, in whatever pieces (small enough not to overflow the buffer) they arrive. If no call raises an exception, noise costs at most the one telegram that follows it, in whatever pieces everything arrives. (Exact behaviour: a single stray letter of a confirmation before a telegram makes the client deaf until the buffer has overflowed; and when the pieces are not telegrams, the overflow can drop the first part of a telegram so that its rest makes the client deaf again, for ever. This is about transports that go on after an exception of the protocol; for a TCP connection see C95.)", "quantifier": "every content of the buffer, every noise, every sequence of telegrams and every way of cutting it", "why_tests_cant": "all streams of bytes and all ways of cutting them", "anchors": ["cbus/protocol/buffered_protocol.py:BufferedProtocol.data_received", "cbus/protocol/cbus_protocol.py:CBusProtocol.handle_data", "cbus/protocol/pciprotocol.py:PCIProtocol"]}
{"id": "C95", "title": "A client or the daemon on a TCP connection", "statement": "On the TCP transport of asyncio the protocol object is handed the pieces that arrive, in order, from the first one on and, while the connection lasts, all of them. The first exception it lets through is the end: it is handed nothing more, nothing more is sent, and as soon as the event loop turns it is told, exactly once, that the connection is lost; the same after the end of the stream (what was still to be sent is sent first) and after an error of the network. A piece that makes the unfinished input longer than 256 bytes is such an exception, whatever it contains. The bytes on the wire are always the first of those written, and while the connection lasts the others wait to be sent. The future the daemon waits for is completed exactly when the object is told; afterwards every command raises and writes nothing, and the daemon publishes no state of a light or sensor, whatever the broker sends. As long as the network does not fail and the messages of a PCI arrive in pieces that cannot overflow the buffer, the connection lasts, every message gets its callbacks in order, and nothing written is lost, whatever the program or the broker does meanwhile. (Exact behaviour: seventeen telegrams that arrive at once end the connection, and with it the daemon; between the exception and the turn of the event loop a command still returns its confirmation code though it is never sent.)", "quantifier": "every object, every history of arrivals, calls, failures and turns of the event loop, every behaviour of the socket", "why_tests_cant": "all histories and all behaviours of the network", "anchors": ["cbus/protocol/buffered_protocol.py:BufferedProtocol.data_received", "cbus/protocol/pciprotocol.py:PCIProtocol.connection_lost", "cbus/protocol/pciprotocol.py:PCIProtocol._send", "cbus/daemon/cmqttd.py:_main"]}
{"id": "C96", "title": "The daemon and the C-Bus when the connection ends", "statement": "The daemon and an emulated PCI at the two ends of a TCP connection, under any schedule of MQTT events, timer rounds, announcements by units, deliveries in pieces of any size and failures of the network or ends of the stream, seen by either end at any time: the lighting commands the emulator has acted on are exactly the beginning of what command messages asked for, in order, once each, and nothing else, and all of it if the connection lasts and nothing is under way; the daemon is told exactly the beginning of what the emulator's messages say, in order and without a gap, and all of it if the connection lasts and nothing is under way. Then, if MQTT was connected at the start, for each light the broker retains the report of the last thing that happened to it. A connection only ends when the network fails, when the stream ends or when a piece is refused because it does not fit the buffer, which never happens at the emulator with pieces of at most 210 bytes; with a refused piece nothing is done. No other exception is raised when data arrives. (Exact behaviour: an order that is under way when the connection ends is never carried out though the broker has been told that it was.)", "quantifier": "every schedule of events at both ends, every behaviour of the two sockets, every point at which the connection ends", "why_tests_cant": "all interleavings and all points of failure", "anchors": ["cbus/daemon/cmqttd.py:_main", "cbus/daemon/cmqttd.py:MqttClient", "cbus/daemon/cmqttd.py:CBusHandler", "cbus/protocol/pciprotocol.py:PCIProtocol", "cbus/protocol/pciserverprotocol.py:PCIServerProtocol", "cbus/protocol/buffered_protocol.py:BufferedProtocol.data_received"]}
{"id": "C97", "title": "The command line of the serial redirector", "statement": "Whatever the arguments of tcp_serial_redirect.py: if they are options in any of the spellings of the manual (letters, bundled or not, long names or unambiguous beginnings of them, values attached, after '=' or in the next word) with numbers where numbers are due, and at most a port and a baud rate unless --port is given, then the serial port is set up with the values given last (defaults otherwise), opened, its RTS and DTR lines set if asked for, and the program listens on the local port, in this order, and serves with the conversion of newlines asked for: none without --convert, so that bytes are copied unchanged. The first step that fails is the last one. A line that asks for help after proper options gets help; every other line is refused, and in both cases no port is touched. (Exact behaviour: a baud rate beginning with 0 is octal as an option and decimal as an argument.)", "quantifier": "every list of arguments, every behaviour of int, every step that can fail", "why_tests_cant": "unboundedly many command lines", "anchors": ["scripts/tcp_serial_redirect.py"]}
{"id": "C98", "title": "A client behind a redirector that converts newlines", "statement": "With --convert as it is set by default (CR LF from the serial port becomes LF, LF from the network becomes CR LF) and if no call fails: unless the serial port is read between the two bytes of a newline, a client on the network reports none of what the PCI sends in whole lines: no light, no clock, and it neither answers nor publishes, whatever else is called and however the bytes are cut; it only reports confirmations and complaints, and after the first byte of a telegram not even those: everything is kept until a piece does not fit, and then thrown away with a ValueError. Its own commands consist, whatever is called and whatever arrives, of base16 digits, the backslash, the tilde, the letters g to z and CR, and so pass the redirector unchanged. (Exact behaviour: lights can be switched but their state is lost.)", "quantifier": "every schedule of the redirector, every stream and way of cutting it, every history of calls of every client", "why_tests_cant": "all schedules, streams and histories of calls", "anchors": ["scripts/tcp_serial_redirect.py", "cbus/protocol/cbus_protocol.py:CBusProtocol.handle_data", "cbus/protocol/packet.py:decode_packet", "cbus/protocol/pciprotocol.py:PCIProtocol"]}
{"id": "C99", "title": "The bytes on the wire", "statement": "Every command, management message and packet has a fixed form on the line, written out byte by byte (0x79 and the group address for on, 0x01 for off, 0x09 to stop a ramp, the code of the rate, address and level for a ramp; 0x0D 0x01 and hours, minutes, seconds, 0xFF for a time; 0x0E 0x02 and the year in two bytes, month, day and the true day of the week for a date; 0x11 0x03 to ask for the time; 0x02 for temperatures in quarters of a degree and for enable variables; 0x7A and 0x73 0x07 for status requests; 0x21, 0x1A, 0x80+n, 0xE0+n and 0xC0+n for identify, recall, reply and status messages, states four to a byte and levels in Manchester code; the header 0x05, 0x06 or 0x23 with the priority in the two highest bits, the source address if there is one, application or unit address, 0x00): encoding succeeds exactly for what has such a form, and gives exactly its bytes, for a packet followed by the byte that makes their sum a multiple of 256 if a checksum is asked for, in upper-case base16 digits; and the characters of '++', '!', '.', '#', '~' and '|' for the notices. A line with these characters is read as what it says.", "quantifier": "every command, management message and packet with possible field values, every priority, source and checksum setting", "why_tests_cant": "all field values; and a test that encodes and decodes again cannot see a constant wrong on both sides", "anchors": ["cbus/common.py", "cbus/protocol/application/lighting.py:LightingSAL", "cbus/protocol/application/clock.py:ClockUpdateSAL", "cbus/protocol/cal/reply.py", "cbus/protocol/cal/extended.py", "cbus/protocol/cal/report.py", "cbus/protocol/pm_packet.py", "cbus/protocol/pp_packet.py", "cbus/protocol/dm_packet.py", "cbus/protocol/packet.py:decode_packet"]}
{"id": "C100", "title": "A line is read exactly as what it says", "statement": "For both directions there is a grammar of lines, written byte by byte without reference to the program: base16 digits two to a byte, the checksum, the flag byte (address type, device bit, priority; two bits ignored), the source address, and behind them device management, management messages to a unit directly or over up to six bridges, or the commands of an application: lights, clock, temperature, enable and status requests, each with the warnings for what is skipped; towards the PCI with prefix and confirmation letter. A line is read as a message, with these values, these warnings and this position behind it, exactly if the grammar says so; no line has two readings; and a line of digits from the PCI that the grammar does not cover is an invalid packet ending with the line or makes the decoder raise. (Exact behaviour described by the grammar: a lighting application other than 0x38 is only read without commands; behind an unknown clock variable twice the stated length is skipped; a clock value of a wrong length is skipped and reading goes on, other unknown commands end the reading; a management message to the PCI may be followed by anything.)", "quantifier": "every sequence of bytes, with and without checksums, strict or not, in both directions", "why_tests_cant": "all byte sequences; a test can only try some of those that are to be refused", "anchors": ["cbus/protocol/packet.py:decode_packet", "cbus/protocol/pm_packet.py", "cbus/protocol/pp_packet.py", "cbus/protocol/dm_packet.py", "cbus/protocol/application", "cbus/protocol/cal"]}
{"id": "C101", "title": "A client is told exactly what the bytes from its PCI say", "statement": "Without reference to the program, the bytes from a PCI are messages: '+' (nothing is reported), '!' (an error), a letter g to z and a byte (a confirmation, successful exactly if the byte is '.'), and lines that end with the first CR LF. A line of the grammar of lines (C100) that carries commands of an application is reported as one callback for each lighting or clock command, in order, with the address of the sender; management messages, and lines the grammar does not cover, are not reported; only an odd number of digits or the line 00 cannot be survived. A connected client that receives a sequence of such messages, in whatever pieces, makes exactly the callbacks of the messages in order, and raises nothing unless its buffer overflows; whatever arrives without an exception is such a sequence, followed by an unfinished message that is kept; and it is so in one way only.", "quantifier": "every stream of bytes, every way of cutting it into pieces, every state of the client", "why_tests_cant": "all byte streams and fragmentations", "anchors": ["cbus/protocol/cbus_protocol.py:CBusProtocol.handle_data", "cbus/protocol/buffered_protocol.py", "cbus/protocol/packet.py:decode_packet", "cbus/protocol/pciprotocol.py:PCIProtocol.handle_cbus_packet"]}
{"id": "C102", "title": "What decoding any bytes gives", "statement": "For all bytes, in either direction, with and without checksums, strict or not, decode_packet has one of five outcomes, and which one is given by rules that do not refer to the program: it waits for more (exactly if there is no complete message), it skips bytes ('null', a blank line, everything up to a '?' before the first CR), it returns a message (a notice, a confirmation, a reset, a smart connect request, or a line of the grammar of C100, with its values, warnings and position), it returns an invalid packet that ends with the line (every other line), or it raises (exactly the lines of C21). The rules never give two outcomes, and always one.", "quantifier": "every sequence of bytes, with and without checksums, strict or not, in both directions", "why_tests_cant": "all byte sequences", "anchors": ["cbus/protocol/packet.py:decode_packet"]}
{"id": "C103", "title": "The emulator does what the bytes it receives say", "statement": "Over any history of calls and received data after a connection, in whatever pieces, what the emulator writes, the methods it calls, what it raises and what it keeps in its buffer are those of a session (C58) in which the bytes are read by the rules of C102 and the grammar of C100, with checksums demanded exactly if the latest configuration says so: it waits for an unfinished command, passes over 'null', blank and cancelled lines, echoes what it consumes in basic mode, raises on the lines that cannot be decoded and keeps them, and acts on the commands of a line as the grammar reads them; the decoder is not mentioned. These rules leave no choice: two such sessions with the same history write the same, call the same methods with the same arguments, raise alike (but for which of two exceptions meets bytes that cannot be decoded) and keep the same in the buffer, the queue and the modes.", "quantifier": "every history of calls, every byte stream and fragmentation", "why_tests_cant": "all histories of calls and byte streams", "anchors": ["cbus/protocol/pciserverprotocol.py:PCIServerProtocol", "cbus/protocol/buffered_protocol.py", "cbus/protocol/packet.py:decode_packet"]}
{"id": "C104", "title": "A client and the daemon do about the bytes from the PCI what they say", "statement": "A connected client that receives messages in the sense of C101, in whatever pieces, without overflowing its buffer and while its clock can be read, raises nothing and keeps the unfinished rest; it writes exactly one line for each request for the time among the commands of the lines, if it is the daemon's handler or was created to answer them, and none otherwise, each a time and date update of its own look at the clock with the next confirmation letter; and it publishes, if it is the daemon's handler and a broker is connected, exactly the reports (C43) of the commands of the lines in order, line by line, with the sender of each line, and otherwise nothing. Whatever it receives without an exception is such a sequence of messages. The messages of a stream, their senders and commands, what is left over and the reports due are determined by its bytes.", "quantifier": "every stream of bytes, every way of cutting it into pieces, every state of the client or daemon", "why_tests_cant": "all byte streams and fragmentations", "anchors": ["cbus/protocol/cbus_protocol.py:CBusProtocol.handle_data", "cbus/protocol/buffered_protocol.py", "cbus/protocol/packet.py:decode_packet", "cbus/protocol/pciprotocol.py:PCIProtocol.handle_cbus_packet", "cbus/daemon/cmqttd.py:CBusHandler"]}
{"id": "C105", "title": "A brightness or transition time with a fraction or an exponent", "statement": "A number with a fraction or an exponent in a payload, read as decimal digits times a power of ten, stands for the double nearest to it, of two equally near ones the one whose last bit is zero; it is infinite exactly from 2^1024 - 2^970 on. A whole number up to 2^53 written this way (128.0, 1.28e2) means that number. Below 256 a fraction is cut off, so that a message with the state ON and such a brightness below 255 makes the connected daemon send and report a ramp to exactly the level without the fraction, unless the number is closer than 2^-45 to the next whole number: 127.99999999999999999 is taken for 128.", "quantifier": "every numeral of JSON of any length, every payload and state of the client", "why_tests_cant": "all numerals; the hard cases of rounding (halfway between two doubles, at the ends of the range) are rare among random ones", "anchors": ["cbus/daemon/cmqttd.py:MqttClient.on_message"]}
{"id": "C106", "title": "The daemon cannot tell the redirector from the PCI", "statement": "The histories of calls, effects and results that the daemon and a PCI (the emulator) can have at the two ends of the redirector, without newline conversion and without failures, are exactly those they can have at the two ends of one direct connection. In particular, under any schedule of MQTT events, timer rounds, announcements by units, steps of the redirector's threads and deliveries in pieces of any size (at most 210 bytes at a time towards the PCI), the lighting commands the PCI has acted on are exactly the beginning of what command messages asked for, in order, once each, and nothing else, and all of it once nothing is under way on the network, on the serial line or in the redirector. Then, if MQTT was connected at the start and the daemon dropped no piece, for each light the broker retains the report of the last thing that happened to it, seen on the C-Bus or asked for over MQTT.", "quantifier": "every schedule of MQTT events, timer rounds, calls on the PCI, steps of the redirector's two threads and deliveries, every cut of both streams", "why_tests_cant": "interleavings of the daemon, the redirector's two threads and the PCI, with bytes held at four places on the way; no test runs the daemon behind the redirector", "anchors": ["cbus/daemon/cmqttd.py:_main", "scripts/tcp_serial_redirect.py:Redirector", "cbus/protocol/pciserverprotocol.py:PCIServerProtocol", "docs/hacking.rst"]}
