{"id": "C01", "title": "Numeric literals denote their value", "statement": "A field value written as the decimal, 0x-hexadecimal, 0o-octal or 0b-binary numeral of an integer n below 2^64, for a field of k <= 8 bytes, is stored as the k-byte big-endian representation of n modulo 256^k.", "quantifier": "every n < 2^64, every base in {2,8,10,16}, every byte count 1..8", "why_tests_cant": "2^64 values times 8 widths times 4 bases; a test samples a handful.", "anchors": ["src/ef-parse-bytes.c: parse_bytes"]}
{"id": "C02", "title": "Exactly the numerals are accepted as numbers", "statement": "For a field of at most 8 bytes a string with no '.' and no ':' is accepted if and only if it is a (possibly empty) digit string of the base its prefix announces whose value is below 2^64; anything else yields no value.", "quantifier": "every string and every byte count 1..8", "why_tests_cant": "Acceptance must be decided for infinitely many strings.", "anchors": ["src/ef-parse-bytes.c: parse_bytes"]}
{"id": "C03", "title": "A parsed value has the size the field asked for", "statement": "Whenever the value parser returns bytes for a k-byte request, it returns exactly k bytes, each in 0..255.", "quantifier": "every string, every k >= 1", "why_tests_cant": "Downstream code indexes the result with the requested size; one short result for one odd string would be an out-of-bounds read.", "anchors": ["src/ef-parse-bytes.c: parse_bytes, parse_bytes_hex, parse_bytes_binary"]}
{"id": "C04", "title": "MAC address text means the address", "statement": "A text of six hexadecimal octets separated by ':' is stored as written; a text of at most five octets with one '::' is stored as the octets before '::' at the front, those after it at the end and zeros between.", "quantifier": "every split of every list of octets, one or two digits each, upper or lower case", "why_tests_cant": "2^48 addresses and all compressed spellings.", "anchors": ["src/ef-parse-bytes.c: parse_bytes (MAC address part)"]}
{"id": "C05", "title": "MAC address parser never leaves its buffer and never accepts more than six octets", "statement": "For every string the parser either rejects or returns six octets without ever reading or writing outside its six byte array; strings with seven or more octets, or six octets and a '::', are rejected.", "quantifier": "every string", "why_tests_cant": "Memory safety over all strings; fuzzing samples it only.", "anchors": ["src/ef-parse-bytes.c: parse_bytes (MAC address part)"]}
{"id": "C06", "title": "IPv4 dotted quads", "statement": "For a 4 byte field the string 'a.b.c.d' with a,b,c,d in 0..255 in decimal is stored as those four bytes, and a string containing '.' is accepted only if it is of that form.", "quantifier": "every quadruple, every string containing a dot", "why_tests_cant": "2^32 addresses; rejection ranges over all strings.", "anchors": ["src/ef-parse-bytes.c: parse_bytes (IPv4 part)"]}
{"id": "C07", "title": "IPv6 addresses", "statement": "For a 16 byte field the text of groups g1:...:gm::h1:...:hn with m+n <= 7, or eight groups without '::', is stored as the 16 byte address with zeros in place of '::'.", "quantifier": "every list of 16 bit groups and every position of '::'", "why_tests_cant": "2^128 addresses and all compressed spellings.", "anchors": ["src/ef-parse-bytes.c: parse_bytes (IPv6 part)"]}
{"id": "C08", "title": "Wide hexadecimal and binary literals are right aligned and stay inside the field", "statement": "A 0x (0b) literal with an even number of digits (a multiple of 8 bits) for a field wider than 8 bytes is stored right-aligned, zero extended on the left, provided it is not longer than the field; a longer literal never corrupts memory.", "quantifier": "every hexadecimal/binary digit string and every field size > 8", "why_tests_cant": "Unbounded literals; only the longer-than-field ones misbehave.", "anchors": ["src/ef-parse-bytes.c: parse_bytes_hex, parse_bytes_binary"]}
{"id": "C09", "title": "Hex dump round trip", "statement": "The bytes printed by the tool's hex output, given back to 'hex', reproduce exactly those bytes; the separators . : - _ between bytes do not change the value.", "quantifier": "every byte string of any length, every choice of separators between bytes", "why_tests_cant": "Arbitrary-length data.", "anchors": ["src/ef.c: print_hex_str", "src/ef-parse-bytes.c: parse_var_bytes_hex"]}
{"id": "C10", "title": "Variable data is the concatenation of its pieces", "statement": "The payload described by a sequence of hex/ascii/ascii0/repeat/pattern pieces is the concatenation of what each piece denotes: the hex bytes, the characters, the characters and a zero byte, n copies, the counting/zero/one pattern of n bytes (counting modulo 256).", "quantifier": "every sequence of pieces, every length", "why_tests_cant": "Arbitrarily long sequences of pieces with arbitrary counts.", "anchors": ["src/ef-parse-bytes.c: parse_var_bytes, parse_var_bytes_"]}
{"id": "C11", "title": "Invalid field values are rejected", "statement": "If the text given for a field cannot be parsed, the frame specification is rejected.", "quantifier": "every header, field and unparseable text", "why_tests_cant": "Must hold for every invalid text of every field of every header.", "anchors": ["src/ef.c: hdr_parse_fields"]}
{"id": "C12", "title": "Writing a field stores the value modulo 2^width at its place", "statement": "Writing a value into a bit field makes the big-endian integer found in that bit range equal to the value modulo 2^width, and changes no other bit of the buffer nor its length.", "quantifier": "every buffer, value, bit offset and width that fits", "why_tests_cant": "All alignments, widths and contents; a test covers a few.", "anchors": ["src/ef.c: hdr_write_field, bit_get, bit_set"]}
{"id": "C13", "title": "Writing outside the buffer is always caught", "statement": "A field write whose bit range does not fit in the buffer, or whose value is narrower than the field, stops at an assertion before any byte outside the buffers is read or written; otherwise it succeeds.", "quantifier": "every buffer, offset, width and value", "why_tests_cant": "Needs every combination of sizes.", "anchors": ["src/ef.c: hdr_write_field, bit_get, bit_set"]}
{"id": "C14", "title": "Every header template is a gap-free bit layout", "statement": "In each of the tool's header templates the non-overlay fields tile the header from bit 0 to its last bit without gap or overlap, the header size is the total rounded up to bytes (at most 1 for the headers without fixed fields, whose size is set when their data is given), and every overlay field lies inside the header.", "quantifier": "every field of every one of the header templates", "why_tests_cant": "No test enumerates all field positions; layout errors in one rarely used field stay unnoticed.", "anchors": ["src/ef.c: def_offset", "all header tables src/ef-*.c"]}
{"id": "C15", "title": "Serialised headers carry the specified field values", "statement": "After serialisation, each field that no other field of its header overlaps reads, in the frame, as the given value if one was given, else the default, else zero, modulo 2^width.", "quantifier": "every frame built from any stack of well-formed headers with any values", "why_tests_cant": "All header stacks and all values.", "anchors": ["src/ef.c: hdr_copy_to_buf_, frame_to_buf"]}
{"id": "C16", "title": "Frame length and header placement", "statement": "The emitted frame has length max(60, sum of header sizes), header i starts at the sum of the sizes before it, and all bytes after the last header are zero.", "quantifier": "every stack of headers", "why_tests_cant": "Every stack of up to 100 headers with variable-size ones.", "anchors": ["src/ef.c: frame_to_buf"]}
{"id": "C17", "title": "The mask has the frame's length and exactly the ignored fields' bits cleared", "statement": "The match mask has the same length as the frame, has ones in the minimum-size padding, and a bit inside a header is one iff it belongs to some field of that header that was not ignored.", "quantifier": "every stack of headers and every set of ignored fields", "why_tests_cant": "All subsets of ignored fields.", "anchors": ["src/ef.c: frame_mask_to_buf, hdr_copy_to_buf_"]}
{"id": "C18", "title": "Ignoring a field makes its bits irrelevant", "statement": "If a field is marked 'ign' then a received frame that differs from the expected one only in that field's bits matches.", "quantifier": "every header, field and received frame", "why_tests_cant": "Must hold for all field contents, including headers with overlay fields.", "anchors": ["src/ef.c: frame_mask_to_buf", "src/ef-buf.c: bequal_mask"]}
{"id": "C19", "title": "Matching compares exactly the unmasked bits", "statement": "Without trailing padding a received frame matches an expectation iff both have the same length and agree on every bit that is one in the mask (every bit when there is no mask).", "quantifier": "every pair of buffers and every mask", "why_tests_cant": "All contents.", "anchors": ["src/ef-buf.c: bequal_mask, bequal"]}
{"id": "C20", "title": "'padding n' ignores n trailing bytes", "statement": "An expectation with 'padding n' matches exactly the received frames that are n bytes longer and agree on the expected bytes, whatever the n trailing bytes are.", "quantifier": "every expectation, n and received frame", "why_tests_cant": "The verdict must not depend on what lies in memory after the expected frame; tests see one memory layout.", "anchors": ["src/ef-buf.c: bequal_mask", "src/ef-padding.c"]}
{"id": "C21", "title": "Computed Internet checksums verify", "statement": "The checksum computed over any data with a zeroed checksum field makes the RFC 1071 one's complement sum of the completed data equal to 0xffff.", "quantifier": "every byte string shorter than 128 KiB", "why_tests_cant": "The carry-fold corner cases are rare (about 1 in 2^14 headers) and not hit by the vectors.", "anchors": ["src/ef.c: inet_chksum"]}
{"id": "C22", "title": "IPv4 header checksum verifies in the emitted frame", "statement": "If the user did not give a checksum, the emitted IPv4 header's one's complement sum is 0xffff.", "quantifier": "every IPv4 header contents and every following payload", "why_tests_cant": "All 2^144 header contents.", "anchors": ["src/ef-ipv4.c: ipv4_fill_defaults", "src/ef.c: inet_chksum"]}
{"id": "C23", "title": "UDP and TCP checksums cover pseudo header and payload", "statement": "If the user did not give a checksum and the header directly follows an IPv4 or IPv6 header, the checksum emitted is the Internet checksum of the pseudo header (addresses, protocol, length) followed by the bytes emitted from this header on with the checksum field zero.", "quantifier": "every address pair, port pair and stack of following headers", "why_tests_cant": "All payloads and stacks.", "anchors": ["src/ef-udp.c: udp_tcp_fill_defaults"]}
{"id": "C24", "title": "ICMP and IGMP checksums cover the message", "statement": "If the user did not give a checksum, the ICMP/IGMP checksum is the Internet checksum of all bytes emitted from that header on (for ICMP over IPv6 with the IPv6 pseudo header), with the checksum field zero.", "quantifier": "every message contents and every stack of following headers", "why_tests_cant": "All payloads and stacks.", "anchors": ["src/ef-icmp.c", "src/ef-igmp.c", "src/ef-mld.c"]}
{"id": "C25", "title": "Length fields equal actual lengths", "statement": "Unless given by the user, IPv4 len, IPv6 len, UDP len, PTP message length and PTP TLV length equal, modulo the field width, the number of bytes actually emitted from (after, for IPv6 and TLVs) that header on.", "quantifier": "every stack of headers", "why_tests_cant": "All stacks and payload sizes.", "anchors": ["src/ef-ipv4.c", "src/ef-ipv6.c", "src/ef-udp.c", "src/ef-ptp.c"]}
{"id": "C26", "title": "Ethertype and protocol fields chain to the next header", "statement": "Unless given by the user, the type field of eth/stag/ctag/rtag/htag and the protocol field of IPv4/IPv6 carry the type number of the header that follows, and keep the documented default when nothing follows.", "quantifier": "every stack of headers", "why_tests_cant": "All pairs of adjacent headers in all stacks.", "anchors": ["src/ef.c: ether_type_fill_defaults", "src/ef-ipv4.c", "src/ef-ipv6.c"]}
{"id": "C27", "title": "Values given by the user are never overwritten", "statement": "Automatic filling never changes a value the user gave for a field (except that a CoAP option's number/value pair is re-encoded into wire format).", "quantifier": "every stack of headers and every set of given fields", "why_tests_cant": "All subsets of fields in all stacks.", "anchors": ["all *_fill_defaults functions"]}
{"id": "C28", "title": "Automatic filling changes sizes only of the variable headers", "statement": "Filling defaults keeps the number and order of headers and every header's size, except for igmp, mld, sv and coap-opt, whose size becomes 8/12, 8/12/24/28, 14/22 and the encoded option length.", "quantifier": "every stack of headers", "why_tests_cant": "All stacks and all subsets of optional fields.", "anchors": ["src/ef-igmp.c", "src/ef-mld.c", "src/ef-sv.c", "src/ef-coap.c"]}
{"id": "C29", "title": "Serialising a frame twice gives the same bytes", "statement": "Serialising the same frame object a second time yields the same bytes as the first time.", "quantifier": "every stack of headers", "why_tests_cant": "Depends on hidden state mutated by the first call.", "anchors": ["src/ef.c: frame_to_buf", "all *_fill_defaults functions"]}
{"id": "C30", "title": "CoAP options decode back", "statement": "A coap-opt header with number delta d and a value v of fewer than 65536 bytes is emitted as an RFC 7252 option that decodes to delta d and value v (an all-zero value counting as empty).", "quantifier": "every d < 65536, every value", "why_tests_cant": "All three extension ranges for delta and length, all contents.", "anchors": ["src/ef-coap.c: options_fill_defaults, coap_parse_option_value"]}
{"id": "C31", "title": "CoAP token length", "statement": "A CoAP token of 1..8 bytes is emitted verbatim after the message id with the token length field equal to its size.", "quantifier": "every token", "why_tests_cant": "All sizes and contents.", "anchors": ["src/ef-coap.c: coap_parse_token, coap_fill_defaults"]}
{"id": "C32", "title": "CoAP code text c.dd", "statement": "The CoAP code parser accepts exactly the strings c.dd with c in 0..7 and dd in 00..31 and stores c*32+dd.", "quantifier": "every string", "why_tests_cant": "Acceptance over all strings.", "anchors": ["src/ef-coap.c: coap_parse_code"]}
{"id": "C33", "title": "Frame parsing terminates, consumes at most the words given and never overflows the header stack", "statement": "For every list of words, parsing a frame terminates, consumes at most the words available, consumes at least one word per header, and never stores more than 100 headers.", "quantifier": "every list of words", "why_tests_cant": "All word lists of any length.", "anchors": ["src/ef-args.c: argc_frame", "src/ef.c: hdr_parse_fields, frame_clone_and_push_hdr"]}
{"id": "C34", "title": "A frame specification is understood from its own words only", "statement": "The frame built from the words it consumed is the same when those words stand alone.", "quantifier": "every list of words", "why_tests_cant": "All continuations.", "anchors": ["src/ef-args.c: argc_frame"]}
{"id": "C35", "title": "Last specification of a field wins and fields do not interfere", "statement": "In a header made of plain fields, giving 'name value' pairs in any order sets each named field to its last given value and leaves the other fields untouched.", "quantifier": "every sequence of field assignments", "why_tests_cant": "All sequences.", "anchors": ["src/ef.c: hdr_parse_fields"]}
{"id": "C36", "title": "Frame construction is memory safe", "statement": "Parsing any word list into a frame and serialising it never reads or writes outside an object, dereferences a null pointer or uses an uninitialised one.", "quantifier": "every list of words", "why_tests_cant": "All word lists; undefined behaviour may go unnoticed in a test.", "anchors": ["src/ef-args.c: argc_frame", "src/ef.c", "src/ef-parse-bytes.c", "all header files"]}
{"id": "C37", "title": "The command line is executed completely or not at all", "statement": "If any part of the command line is not understood nothing is transmitted, received or printed as a frame and the exit status is non-zero; otherwise every word belongs to exactly one executed command.", "quantifier": "every command line", "why_tests_cant": "All command lines.", "anchors": ["src/ef-args.c: argc_cmds, argc_cmd, main_"]}
{"id": "C38", "title": "Command parsing never crashes", "statement": "For every command line the command parser returns, without undefined behaviour.", "quantifier": "every command line", "why_tests_cant": "All command lines.", "anchors": ["src/ef-args.c: argc_cmd"]}
{"id": "C39", "title": "Named frames", "statement": "A command that refers to a frame by name uses the frame of the first 'name' definition with that name, wherever it stands on the command line; if any referenced name is undefined, nothing is transmitted or received and the number of undefined references is reported.", "quantifier": "every command list", "why_tests_cant": "All orders of definitions and uses.", "anchors": ["src/ef-exec.c: copy_cmd_by_name, exec_cmds"]}
{"id": "C40", "title": "Commands are grouped per interface in order", "statement": "Every rx/tx command is attached to exactly one socket, that of its interface; commands of one interface keep their command line order; there is one socket per distinct interface and the socket table never overflows.", "quantifier": "every command list of at most 100 commands", "why_tests_cant": "All command lists.", "anchors": ["src/ef-exec.c: add_cmd_to_resource"]}
{"id": "C41", "title": "Every received frame is accounted for exactly once", "statement": "On an interface without transmit commands, for any sequence of received frames: each frame either satisfies exactly one not yet satisfied expectation that matches it or counts as one error; each expectation is satisfied at most once; the result is errors plus unsatisfied expectations.", "quantifier": "every list of expectations, every sequence and interleaving of received frames", "why_tests_cant": "All arrival orders over all interfaces.", "anchors": ["src/ef-exec.c: rfds_wfds_process, exec_cmds"]}
{"id": "C42", "title": "Without ignored fields the verdict is multiset equality", "statement": "On interfaces without transmit commands and with only exact expectations, the result is zero iff the received frames are a permutation of the expected ones, and in general it is the number of unexpected plus the number of missing frames.", "quantifier": "every list of exact expectations and every received sequence", "why_tests_cant": "All permutations and multiplicities.", "anchors": ["src/ef-exec.c: rfds_wfds_process, exec_cmds"]}
{"id": "C43", "title": "The verdict does not depend on arrival order", "statement": "If the received frames can be assigned one-to-one to the expectations, the test passes whatever the order in which they arrive.", "quantifier": "every list of expectations including masked ones, every arrival order", "why_tests_cant": "All orders.", "anchors": ["src/ef-exec.c: rfds_wfds_process"]}
{"id": "C44", "title": "Interfaces are independent", "statement": "What is reported for an interface depends only on its own commands and on the sequence of frames received on it, not on how the sockets' events interleave.", "quantifier": "every schedule of socket events", "why_tests_cant": "All interleavings.", "anchors": ["src/ef-exec.c: rfds_wfds_process"]}
{"id": "C45", "title": "An unexpected frame is always an error", "statement": "A received frame that matches no pending rx expectation of its interface is counted as an error, and receiving never changes what is transmitted.", "quantifier": "every mix of rx and tx commands on an interface and every received frame", "why_tests_cant": "Depends on the moment the frame arrives relative to pending transmissions.", "anchors": ["src/ef-exec.c: rfds_wfds_process"]}
{"id": "C46", "title": "Each transmit command sends its frame exactly the requested number of times, in order", "statement": "If sends succeed, a 'tx IF rep n' command passes its frame to the socket exactly n times, after all transmissions of the earlier tx commands of that interface, however the sockets' readiness interleaves.", "quantifier": "every list of tx commands, every n, every readiness schedule", "why_tests_cant": "All schedules and counts.", "anchors": ["src/ef-exec.c: rfds_wfds_process", "src/ef-args.c: argc_cmd (rep)"]}
{"id": "C47", "title": "A transmit command that could not be completed is reported", "statement": "If a tx command's frame was not sent the requested number of times, the result is non-zero.", "quantifier": "every schedule including send failures and time-out", "why_tests_cant": "All failure points.", "anchors": ["src/ef-exec.c: exec_cmds, rfds_wfds_process"]}
{"id": "C48", "title": "Exit status tells success from failure", "statement": "The exit status of the process is zero iff no error was counted.", "quantifier": "every number of errors", "why_tests_cant": "Needs runs with hundreds of errors.", "anchors": ["src/main.c", "src/ef-exec.c: exec_cmds", "src/ef-args.c: main_"]}
{"id": "C49", "title": "Stripped VLAN tags are re-inserted", "statement": "When the kernel reports a stripped VLAN tag, the frame used for matching is the received one with TPID and TCI inserted after byte 12, four bytes longer.", "quantifier": "every received frame and tag", "why_tests_cant": "All lengths and tags.", "anchors": ["src/ef-exec.c: rfds_wfds_process (aux data)"]}
{"id": "C50", "title": "Printed hex of a frame can be replayed", "statement": "For every frame the tool can print with 'hex', the specification 'data hex <printed text>' produces the same frame.", "quantifier": "every frame of at least 60 bytes", "why_tests_cant": "All frames.", "anchors": ["src/ef-exec.c: exec_cmds (HEX)", "src/ef-payload.c", "src/ef.c: print_hex_str"]}
{"id": "C51", "title": "Capture command line", "statement": "A capture request 'IF,SNAPLEN,TSTYPE,FILE,COUNT' starts tcpdump on IF with exactly the options given (-s SNAPLEN, -j TSTYPE, -c COUNT), writing to FILE or, if absent, IF.pcap; missing or empty elements add no options and elements beyond the fifth are ignored.", "quantifier": "every request string", "why_tests_cant": "All strings.", "anchors": ["src/ef-capture.c: capture_add"]}
{"id": "C52", "title": "Time-out arithmetic", "statement": "A time-out of m >= 0 milliseconds is converted to a normalised (seconds, microseconds) pair denoting exactly m milliseconds, and the receive loop stops once it has passed.", "quantifier": "every m >= 0", "why_tests_cant": "All values.", "anchors": ["src/ef-exec.c: exec_cmds"]}
{"id": "C53", "title": "OPC-UA 16 bit fields are little endian", "statement": "OPC-UA publisher id and writer group id fields are stored with the low byte first.", "quantifier": "every numeral below 2^64", "why_tests_cant": "All values.", "anchors": ["src/ef-opcua.c: opc_parse_uint16"]}
{"id": "C54", "title": "Every field shown in the help can be set", "statement": "For every header template and every field, the words 'field value' set that very field.", "quantifier": "every field of every template", "why_tests_cant": "Several hundred fields; duplicates and keyword collisions are easy to miss.", "anchors": ["src/ef.c: find_field, hdr_parse_fields", "all header tables"]}
{"id": "C55", "title": "MLD checksums cover the pseudo header and the message", "statement": "If the user did not give a checksum, the MLD checksum is the Internet checksum of the pseudo header of the first IPv6 header of the frame (addresses, length, 58) and of all bytes emitted from the MLD header on, with the checksum field zero.", "quantifier": "every message contents, every stack of headers with an IPv6 header somewhere before the MLD header", "why_tests_cant": "All contents and stacks.", "anchors": ["src/ef-mld.c: mld_fill_defaults"]}
{"id": "C56", "title": "Every header is read from its own words", "statement": "An accepted frame specification splits into consecutive groups of words, one per header, such that each group alone gives exactly that header: what one header is given never depends on the headers around it or on frames parsed before.", "quantifier": "every sequence of words that is accepted", "why_tests_cant": "All sequences of headers and values.", "anchors": ["src/ef-args.c: argc_frame", "src/ef.c: hdr_parse_fields, frame_clone"]}
{"id": "C57", "title": "Execution always ends with a result", "statement": "Every command line that is understood is executed to the end and gives a result, without undefined behaviour, whatever is received.", "quantifier": "every understood command line, every schedule of socket events, every received message", "why_tests_cant": "Crashes depend on message lengths, tags and on the arithmetic of repeat counters up to 2^32.", "anchors": ["src/ef-exec.c: exec_cmds, rfds_wfds_fill, rfds_wfds_process", "src/ef-buf.c: bequal_mask"]}
{"id": "C58", "title": "Command words mean what the help says", "statement": "A group of words is a command exactly if it is 'name N FRAME', 'hex FRAME', 'pcap FILE FRAME', 'rx IF [FRAME]', 'tx IF FRAME' or 'tx IF rep N FRAME', where FRAME may be replaced by 'name N' except after 'name N'; the command then has exactly that interface, file, name, frame and number of repetitions.", "quantifier": "every group of words", "why_tests_cant": "All combinations of words, including interfaces and names that look like keywords.", "anchors": ["src/ef-args.c: argc_cmd"]}
{"id": "C59", "title": "Life cycle of captures", "statement": "For an accepted command line with capture requests, the old capture files are removed, then every capture is started, in the order of the requests, before any frame is sent or received; the program then stays for at least the time-out, after which every capture that is still running gets SIGINT and, if it still does not end, SIGTERM; captures that ended by themselves get no signal. Given what the calls of the receive loop return, the exit status and the frames are those of the same commands without captures. (Starts, exits and stops are one step each here; C85 to C88 take them apart.)", "quantifier": "every list of requests, every order in which the captures end", "why_tests_cant": "All histories of the child processes.", "anchors": ["src/ef-capture.c: capture_all_start, capture_all_stop, signal_child", "src/ef-args.c: argc_cmds"]}
{"id": "C60", "title": "Files and printed frames", "statement": "Every 'pcap FILE' command appends exactly its frame to FILE and every 'hex' command prints exactly its frame, once each, in the order of the command line, and before anything is sent or received, whatever else the command line contains.", "quantifier": "every accepted command line, every environment", "why_tests_cant": "All mixes of commands and schedules.", "anchors": ["src/ef-exec.c: exec_cmds, pcap_append"]}
{"id": "C61", "title": "Options may stand anywhere", "statement": "-t and -c take the rest of the word or the next word; they may stand anywhere before '--'; the last -t counts (100 ms without one), all -c are collected in order, and the remaining words in order are the commands. -v, -h, unknown options and missing arguments stop the program before any command.", "quantifier": "every list of arguments", "why_tests_cant": "All mixes of options and operands.", "anchors": ["src/ef-args.c: main_"]}
{"id": "C62", "title": "A refused command line has no effect", "statement": "A command line with a usage error or with a command that is not understood changes nothing: nothing is sent, written, removed or started, and the exit status is 255.", "quantifier": "every list of arguments that is refused", "why_tests_cant": "All places of the error in the command line.", "anchors": ["src/ef-args.c: main_, argc_cmds", "src/ef-capture.c: capture_add"]}
{"id": "C63", "title": "Headers have the format of their standard", "statement": "In every emitted frame each field of each header stands at the bits where the standard of that protocol (IEEE 802.3, 802.1Q, 802.1CB, 802.1AS, IEEE 1588, IEC 62439, RFC 791, 768, 793, 8200, 3376, 3810, 7252, G.8013, OPC 10000-14 ...) puts it, with the width it has there: it holds the low bits of the value the user gave, and otherwise, unless the program works it out, its documented default; the header is as long as the standard says.", "quantifier": "every frame, every header of the standards table in every position, every field, every value", "why_tests_cant": "The layout of some eighty header fields under every combination of values, header forms (query, report, supervision TLVs) and preceding headers.", "anchors": ["src/ef-eth.c, src/ef-vlan.c, src/ef-ipv4.c, src/ef-ipv6.c, src/ef-udp.c, src/ef-arp.c, src/ef-icmp.c, src/ef-igmp.c, src/ef-mld.c, src/ef-ptp.c, src/ef-oam.c, src/ef-mrp.c, src/ef-coap.c, src/ef-opcua.c, src/ef-profinet.c", "src/ef.c: hdr_write_field, frame_to_buf"]}
{"id": "C64", "title": "Next headers are announced by their registered numbers", "statement": "Unless the user gives it, the type field of an Ethernet or tag header holds the IEEE registered ethertype of the next header, and the protocol field of an IP header holds the IANA protocol number of the next header.", "quantifier": "every frame, every pair of adjacent headers", "why_tests_cant": "All pairs of headers in all positions.", "anchors": ["src/ef-eth.c: ether_type_fill_defaults", "src/ef-ipv4.c: ipv4_fill_defaults", "src/ef-ipv6.c: ipv6_fill_defaults", "src/ef-mld.c"]}
{"id": "C65", "title": "The words determine the bytes", "statement": "A frame written as headers of the standards table, each followed by any assignments 'field value' in any order (numbers in any base, MAC, IPv4 and IPv6 addresses), and a payload of any pieces, is always accepted, and the bytes printed, sent or expected for it are: the headers one after the other in the order written, each field at its place in the standard format holding the number its last text stands for (cut to the field), or its default, or what the program works out; then the payload; then zeros up to 60 bytes; and nothing else.", "quantifier": "every list of headers, every list of assignments, every value text, every payload, within 100 words and the model's 128 MiB", "why_tests_cant": "All frames a user can write with these headers.", "anchors": ["src/ef-args.c: argc_frame", "src/ef.c: hdr_parse_fields, frame_to_buf", "src/ef-parse-bytes.c: parse_bytes, parse_var_bytes", "src/ef-args.c: argc_cmd"]}
{"id": "C66", "title": "What an expectation accepts", "statement": "An rx command whose frame has no ignored field accepts exactly the bytes of that frame. If fields or whole headers are ignored, it accepts exactly the frames of the same length that agree with it in every bit of a field that is not ignored and in every bit after the last header.", "quantifier": "every frame specification, every choice of ignored fields, every received frame", "why_tests_cant": "All masks and all received frames.", "anchors": ["src/ef.c: frame_mask_to_buf, hdr_copy_to_buf_mask", "src/ef-exec.c: bequal_mask", "src/ef-args.c: argc_cmd"]}
{"id": "C67", "title": "Ignoring fields works in every frame", "statement": "Whenever a frame can be turned into bytes, the same frame with ignored fields can be used as an expectation: building its match mask neither fails nor stops the program.", "quantifier": "every frame specification, every choice of ignored fields", "why_tests_cant": "All header stacks and field choices; the failing ones depend on which optional fields are absent.", "anchors": ["src/ef.c: frame_mask_to_buf, hdr_write_field", "src/ef-mld.c: mld_fill_defaults", "src/ef-igmp.c: igmp_fill_defaults", "src/ef-args.c: argc_cmd"]}
{"id": "C68", "title": "No memory errors", "statement": "Whatever the command line, from start to end the program never uses memory it has freed, never frees anything twice, and never frees anything it did not allocate. The commands it holds in memory are those the command line describes; no two of them share memory; the header templates stay as they are; and freeing the commands frees everything that belongs to them.", "quantifier": "every list of command line words, every point of the run", "why_tests_cant": "All command lines; a sanitizer run only sees the lines that were tried.", "anchors": ["src/ef.c: hdr_clone, hdr_copy, hdr_destruct, frame_clone, frame_free, init, uninit", "src/ef-buf.c: bclone, bfree", "src/ef-args.c: argc_frame, argc_cmd, argc_cmds, cmd_destruct", "src/ef-exec.c: copy_cmd_by_name"]}
{"id": "C69", "title": "All memory is released at the end", "statement": "When the commands of an accepted command line have been carried out and the program has cleaned up, everything it allocated for templates, frames, buffers and commands has been freed.", "quantifier": "every accepted list of command line words", "why_tests_cant": "All command lines.", "anchors": ["src/ef.c: uninit, hdr_destruct", "src/ef-args.c: cmd_destruct, argc_cmds", "src/ef-oam.c: oam_uninit"]}
{"id": "C70", "title": "Copies are independent", "statement": "A copy of a frame or header stands for the same frame or header but shares no memory with the original: changing or freeing one never affects the other. In particular using a header or a named frame any number of times never changes the template or the named frame.", "quantifier": "every frame, every header, every change of any part of the copy or the original", "why_tests_cant": "All frames and all sequences of changes.", "anchors": ["src/ef.c: field_copy, hdr_copy, hdr_clone, frame_clone, frame_to_buf", "src/ef-exec.c: copy_cmd_by_name"]}
{"id": "C71", "title": "The words determine every bit of the frame", "statement": "For every sequence of headers of the published formats with field assignments, and every payload, there is exactly one byte string that has the given values in the given fields, the preset values in the others, lengths that count the bytes that follow, type fields that name the next header, checksums over the bytes RFC 791, 768, 793, 792 and 4443 name (their sum folded once, see C21), zeros in unnamed bits, the payload, and zeros up to 60 bytes; this is what the hex command prints and what every command sends or expects.", "quantifier": "every list of headers and assignments of at most 100 words, every payload up to 110000 bytes", "why_tests_cant": "A specification that leaves no freedom has to be compared with the program for every combination of headers, values and payloads.", "anchors": ["src/ef-args.c: argc_frame", "src/ef.c: frame_to_buf, frame_fill_defaults", "all header tables and fill functions src/ef-*.c"]}
{"id": "C72", "title": "The report shows the frames", "statement": "If the names of frames and interfaces contain no newline, then on every interface the lines RX-OK, TX, RX-ERR and NO-RX show exactly the frames that were accepted, transmitted, received without being expected, and missed, in the order of these events, each by the name of a command that has or accepts this frame, or by two hexadecimal digits for each byte; two runs print the same only if the same is to be seen of their events; and hex prints exactly one line with the digits of the frame.", "quantifier": "every command line, every schedule of receptions and transmissions, every content of the received frames", "why_tests_cant": "All runs; that a report cannot be read in two ways compares every pair of runs.", "anchors": ["src/ef-exec.c: rfds_wfds_process, exec_cmds", "src/ef.c: print_hex_str", "src/ef-buf.c: po, pe"]}
{"id": "C73", "title": "Errors and only errors are on stderr", "statement": "The lines on stderr are the errors: the exit status before truncation is the number of RX-ERR and NO-RX lines; if named frames are not defined each of them is named there; and stderr is empty exactly if the status is 0.", "quantifier": "every command line and every run", "why_tests_cant": "All runs and all command lines.", "anchors": ["src/ef-exec.c: exec_cmds, copy_cmd_by_name", "src/ef-args.c: main_, argc_cmds"]}
{"id": "C74", "title": "The help is true", "statement": "The usage lists exactly the words that start a command, 'help' in place of a header exactly the words that start a header, and 'help' behind a header exactly the words that are names of its fields, each with the bit offset and the width it has in the format of that header. The examples of the usage are accepted. What is printed while parsing does not change what is parsed.", "quantifier": "every word, every header", "why_tests_cant": "The list has to be compared with the parser for every word, listed or not.", "anchors": ["src/ef.c: field_help, hdr_help", "src/ef-args.c: print_help, argc_frame, argc_cmd"]}
{"id": "C75", "title": "Unreadable values are reported", "statement": "A value that can be read for the field causes no message, and a value that cannot be read causes one.", "quantifier": "every header, every field, every value text", "why_tests_cant": "All texts in all fields.", "anchors": ["src/ef-parse-bytes.c: parse_bytes, parse_field_hex", "src/ef.c: hdr_parse_fields"]}
{"id": "C76", "title": "A refused line says why", "statement": "If a command line is refused something is printed.", "quantifier": "every list of words", "why_tests_cant": "All ways in which a line can be wrong.", "anchors": ["src/ef-args.c: argc_frame, argc_cmd, argc_cmds", "src/ef.c: hdr_parse_fields", "src/ef-payload.c, src/ef-padding.c"]}
{"id": "C77", "title": "The help describes the frame", "statement": "A frame written from the help alone is the frame the help describes: for every header of fixed form that 'help' lists, in any order, with assignments to fields that 'help' shows behind that header, each given field is found at the bit offset and width shown, a field that is not given holds the default the help announces for it (0 in the frame headers of the switches if it announces none), where fields overlap each bit belongs to the last one in the help that is given, and the header ends where its last field ends.", "quantifier": "every list of fixed headers that help lists, every assignment to shown fields, every payload, up to 100 words", "why_tests_cant": "All combinations of 46 headers, their hundreds of fields (many overlapping) and all values.", "anchors": ["src/ef.c: field_help, hdr_help, hdr_copy_to_buf", "src/ef-args.c: argc_frame", "src/ef-ifh.c: all field tables", "all header tables src/ef-*.c"]}
{"id": "C78", "title": "The printed line", "statement": "Whatever options stand between the words or before a '--', a line whose other words are 'hex' and a well-written frame makes the program print exactly one line, the bytes of that frame in order with two digits each, and nothing on either stream besides it, and exit with status 0. What was printed, given back behind 'hex data hex', is printed again unchanged.", "quantifier": "every command line (options, '--', order), every list of headers and assignments, every payload, up to 100 words", "why_tests_cant": "All spellings of all frames with options interleaved anywhere, through option parsing, frame parsing and printing.", "anchors": ["src/ef-args.c: main_, argc_cmds, argc_frame", "src/ef-exec.c: exec_cmds", "src/ef.c: print_hex_str", "src/ef-parse-bytes.c: parse_bytes"]}
{"id": "C79", "title": "Lists of buffers keep their elements", "statement": "However a program makes lists of buffers, puts buffers or other lists behind them and frees them, with or without memory for the new elements, every call returns, each list has exactly the elements given to it in that order, each element is freed once and nothing else is, and when all lists are freed no memory is in use.", "quantifier": "every history of calls on any number of lists, every content, every failure of calloc", "why_tests_cant": "Chains of any length built in any order, on any heap; use after free, double free and leaks depend on the whole history.", "anchors": ["src/ef-buf.c: ble_alloc, ble_tail, ble_append, ble_append_buf, ble_free", "src/ef.h: buf_list_element_t"]}
{"id": "C80", "title": "Text appended to a buffer list is in the list", "statement": "bl_printf_append returns the length of the text, and the text is then behind the text that the list had.", "quantifier": "every list, every text, compiled with or without assertions", "why_tests_cant": "Texts of all lengths against all fill states of the last element, and histories of calls.", "anchors": ["src/ef-buf.c: bl_printf_append, bl_check, bl_reset", "src/ef.h: bl_init, buf_list_t"]}
{"id": "C81", "title": "Buffers are values", "statement": "Two buffers are equal if and only if both are absent or both hold the same bytes; a copy is a new block that holds the same bytes, a printed buffer holds the text and a zero, a fresh one holds zeros; without memory the result is NULL; no other block is touched, and freeing a buffer frees nothing else.", "quantifier": "every heap, every buffer, every text, every failure of calloc", "why_tests_cant": "All contents and all heaps.", "anchors": ["src/ef-buf.c: balloc, bclone, bfree, bequal, bprintf"]}
{"id": "C82", "title": "The words of any frame determine every bit of it", "statement": "A frame may be any sequence of headers of published format, CoAP options, CoAP payload and raw bytes. Its words stand for exactly one byte string: the parts one after the other without gap, in the form that the given fields select (RFC 2236 or RFC 3376 for igmp, RFC 2710 or RFC 3810 for mld, one or two TLVs for a supervision frame, the length of the token and of the PROFINET data, the extensions of CoAP options), each given field at its place with its value, and each field not given with the length, type, token length, checksum or preset value that the standard demands; zeros up to 60 bytes. That byte string is what the program prints, sends and expects.", "quantifier": "every list of parts, every assignment, every payload, up to 100 words and 130000 bytes", "why_tests_cant": "All sequences of some 40 kinds of parts, all assignments and values, with forms that depend on which fields are given.", "anchors": ["src/ef-args.c: argc_frame", "src/ef.c: hdr_copy_to_buf, frame_to_buf", "src/ef-coap.c: coap_parse_token, coap_parse_parms, coap_fill_defaults, options_fill_defaults", "src/ef-igmp.c: igmp_fill_defaults", "src/ef-mld.c: mld_fill_defaults", "src/ef-sv.c: sv_fill_defaults", "src/ef-profinet.c"]}
{"id": "C83", "title": "An expectation compares exactly the fields that are not ignored", "statement": "In the words of an expected frame the value of a field may be 'ign' or 'ignore', and one of these words directly behind the name of a header stands for all its fields; of several values of a field the last one counts. The commands rx and name then accept a received frame exactly if it has the length of the frame that the other words describe (an ignored field being one that is not given) and agrees with it in every bit outside the ignored fields. Out of scope are supervision frames without a second TLV; that the command is accepted at all is claimed if 14 bytes of the frame are left from the start of each igmp header, 30 from that of each mld header and 22 from that of each sv header.", "quantifier": "every list of parts of published format, every assignment of texts and ignore words, every payload, every received frame, up to 100 words and 130000 bytes", "why_tests_cant": "All sequences of some 40 kinds of parts, all sets of ignored fields, all received frames.", "anchors": ["src/ef.c: hdr_parse_fields, hdr_copy_to_buf_mask, frame_mask_to_buf, frame_to_buf", "src/ef-buf.c: bequal_mask", "src/ef-args.c: argc_frame, argc_cmd", "src/ef-exec.c: rfds_wfds_process"]}
{"id": "C84", "title": "A test written in words passes exactly when the wire agrees with the words", "statement": "A command line of frames to send ('tx IF FRAME', 'tx IF rep N FRAME'), frames to expect ('rx IF FRAME', 'rx IF') and named frames ('name N FRAME', used as 'name N'), all in the words of C82 and C83, is understood and run to its end. On each interface exactly the frames that the words describe are sent, in the order of the line, each as often as it says, as far as the socket gets writable. If the result is 0, the frames that arrived on each interface and the expectations there pair off, every frame agreeing with the words of its expectation in all bits that are not ignored; and conversely, provided that two expectations of an interface accept the same frames or have no frame in common, which is always so if nothing is ignored. An interface is used either for sending or for receiving; the line has at most 100 words; no definition stands directly behind 'rx IF'.", "quantifier": "every such line, every sequence of rounds of select, every arrival of ordinary frames", "why_tests_cant": "All combinations of commands, frames, names and interfaces, and all schedules of sends and arrivals.", "anchors": ["src/ef-args.c: argc_cmd, argc_cmds, argc_frame", "src/ef-exec.c: exec_cmds, copy_cmd_by_name, rfds_wfds_process, rfds_wfds_fill", "src/ef.c: frame_to_buf, frame_mask_to_buf", "src/ef-buf.c: bequal_mask"]}
{"id": "C85", "title": "Captures that still run are stopped, whenever they end", "statement": "Captures are processes that may end at any moment, and the SIGCHLD of one may be delivered between any two steps of the program or inside any call that waits. Whatever the schedule: a capture that was started and has not ended when the program begins to stop them is sent SIGINT; one that has not ended when the program turns to killing is sent SIGTERM; SIGTERM is only sent after ten thousand polls (of a millisecond each) since the program began to stop the captures; and when the program ends, every capture has ended or has been sent both signals and been polled for twenty thousand times.", "quantifier": "every list of captures, every interleaving of the program with the ends of captures, deliveries of SIGCHLD and results of fork", "why_tests_cant": "The number of interleavings is unbounded and no test controls when a child ends or when a signal is delivered.", "anchors": ["src/ef-capture.c: capture_start, capture_all_start, capture_all_stop, wait_poll, signal_child, signal_empty, capture_by_pid", "src/ef-args.c: argc_cmds", "src/ef-exec.c: exec_cmds"]}
{"id": "C86", "title": "Nobody else is sent a signal", "statement": "The program sends SIGINT and SIGTERM only to captures it started and has not waited for (the pid of a process that has been waited for may by then be that of a stranger), and each of them gets each signal at most once. A capture that has been waited for before the program begins to stop them gets none.", "quantifier": "every list of captures and every schedule", "why_tests_cant": "The wrong process is only hit under schedules that no test can arrange.", "anchors": ["src/ef-capture.c: capture_start, capture_all_stop, signal_child, capture_by_pid"]}
{"id": "C87", "title": "The program ends whatever its captures do", "statement": "There is a bound on the number of steps of every schedule, linear in the number of captures and of rounds of the receive loop; and the program never waits for a capture for ever: from whatever point, it gets to its end without any capture ending.", "quantifier": "every list of captures and every schedule", "why_tests_cant": "Termination for all schedules.", "anchors": ["src/ef-capture.c: wait_poll, capture_all_stop, capture_all_start", "src/ef-exec.c: exec_cmds"]}
{"id": "C88", "title": "Capturing does not change the test", "statement": "A test with captures sends and receives the same frames and has the same exit status as without: it listens and sleeps until the time-out, whether or not a capture ends meanwhile, and a capture that cannot be started is noticed.", "quantifier": "every command line, every schedule, everything the sockets deliver", "why_tests_cant": "Whether the receive loop is interrupted depends on the moment at which a capture ends.", "anchors": ["src/ef-exec.c: exec_cmds", "src/ef-capture.c: capture_start, signal_child", "src/ef-args.c: argc_cmds, main_"]}
{"id": "C89", "title": "The test is executed once, with or without a shell for the captures", "statement": "However many captures are asked for, and whether or not the shell that is to run each of them can be executed, one process executes the commands of the line: every frame is sent as often as the line says, and only the program itself signals the captures it has started.", "quantifier": "every command line, every result of every fork and every execl in every process that comes of the program, all surroundings of each of these processes", "why_tests_cant": "The processes that come of a failing execl go on by themselves; all combinations of failures in all of them have to be considered.", "anchors": ["src/ef-capture.c: capture_execl, capture_start, capture_all_start, capture_all_stop", "src/ef-args.c: argc_cmds"]}
{"id": "C90", "title": "The exit status of the program tells whether the test passed", "statement": "A test written in words (frames to send, frames to expect, named frames), given to the program with -t and -c options anywhere between its words, makes the program end with status 0 exactly when on every interface that is listened to the frames that arrived before the time-out pair off with the frames expected there, each being as the words of its expectation say. Whatever the captures do, the program gets to its end.", "quantifier": "every test in words, all options, every schedule of the captures, every world in which the sockets can be opened, sending works and frames of ordinary size arrive", "why_tests_cant": "Options, values, layout, masks, matching, the receive loop, the captures and the exit status all take part; no finite set of runs covers their combinations.", "anchors": ["src/ef-args.c: main_, argc_cmds, argc_cmd", "src/ef-exec.c: exec_cmds, rfds_wfds_process", "src/ef-capture.c: capture_all_start, signal_child", "src/ef.c: hdr_parse_fields, frame_to_buf, frame_mask_to_buf"]}
{"id": "C91", "title": "What is judged on an interface is what arrives there", "statement": "The frames that are received and judged for an interface are those that arrive at it from the moment its socket has been bound and emptied, in the order in which they arrive, each with its VLAN tag; nothing that arrived earlier or at another interface is judged, and nothing is passed over. A line that names an interface that does not exist fails. Everything said of runs in which the turns of the loop are given (C37-C50) holds of the turns that come of this.", "quantifier": "every command line, every interleaving of the system calls with frames that arrive at any interface, every result of every system call", "why_tests_cant": "Frames arrive between any two system calls while a socket is made, bound and emptied; a test cannot place them.", "anchors": ["src/ef-exec.c: raw_socket, exec_cmds, rfds_wfds_process"]}
{"id": "C92", "title": "Sockets are made, used and closed in order", "statement": "For each interface the line names one socket is made, bound, set up, emptied, used and closed, in this order, also in executions that never end; it is not touched before or afterwards and is closed once. All of them can be used before the first frame is awaited, reading from one never waits, and at the end, whatever failed, none is left open.", "quantifier": "every command line, every interleaving of the system calls with frames that arrive at any interface, every result of every system call", "why_tests_cant": "The order has to hold whatever arrives and whatever fails; what is left open cannot be seen from outside.", "anchors": ["src/ef-exec.c: raw_socket, exec_cmds, rfds_wfds_fill, rfds_wfds_process"]}
{"id": "C93", "title": "The program comes to its end under any traffic", "statement": "However many frames arrive, and whenever they do, setting up the sockets takes a bounded number of system calls for every interface, every turn of the loop takes a bounded number, and once the time is up a bounded number is left to do. The program waits nowhere but in select, and there not when nothing is awaited or the time is up: whatever has happened, it can always be finished without anything else arriving.", "quantifier": "every command line, every interleaving of the system calls with frames that arrive at any interface, every point of an execution", "why_tests_cant": "A flood of frames at any moment, and every state in which an execution may be, have to be considered.", "anchors": ["src/ef-exec.c: raw_socket, exec_cmds, rfds_wfds_fill, rfds_wfds_process"]}
{"id": "C94", "title": "A test in words is decided by what arrives at the interfaces", "statement": "A command line that is a test in words has the result 0 exactly when the frames that arrive at each interface that is listened to, from the moment its socket is usable until the time is up, pair off with the frames expected there, each being as the words of its expectation say. Every such test can be passed: when the frames it asks for arrive, there is an execution with the result 0.", "quantifier": "every test in words, every interleaving of the system calls with frames of ordinary size that arrive at any interface, in which sending works", "why_tests_cant": "Words, layout, masks, matching, the receive loop and the sockets all take part, and frames arrive at any moment.", "anchors": ["src/ef-exec.c: raw_socket, exec_cmds, rfds_wfds_process", "src/ef-args.c: argc_cmds, argc_cmd, argc_frame", "src/ef.c: hdr_parse_fields, frame_to_buf, frame_mask_to_buf"]}
{"id": "C95", "title": "Captures, sockets and the program together", "statement": "With captures and sockets at once, whatever arrives, whenever captures end and signals are delivered: the sockets do what C91-C94 say and the captures what C85-C88 say; the captures cover the test (each runs, or could not be started, before the first socket is made, and none is stopped before the test is over); they make no difference to what the test does, says and results in; and the exit status of a test in words is 0 exactly when the frames that arrive until the time is up pair off with the frames expected. From every point the program gets to its end.", "quantifier": "every command line with any options and captures, every interleaving of system calls, arriving frames, ends of captures and deliveries of signals", "why_tests_cant": "Three kinds of events happen at any moment and in any order; a test cannot place them, let alone in all combinations.", "anchors": ["src/ef-args.c: main_, argc_cmds", "src/ef-exec.c: exec_cmds, raw_socket, rfds_wfds_process", "src/ef-capture.c: capture_all_start, capture_all_stop, signal_child"]}
{"id": "C96", "title": "The test of a device that passes frames on", "statement": "A test in words that sends frames on some interfaces and expects exactly these on others ends with status 0 exactly if the device between them passes on all that is sent, and nothing else, unchanged and in any order: every frame lost, changed, doubled or made up leads to another status. Options and captures may stand anywhere.", "quantifier": "every such test, every assignment of sending to listening interfaces, every interleaving of system calls, arriving frames, ends of captures and deliveries of signals", "why_tests_cant": "What the device does, and when, cannot be enumerated, nor can the frames.", "anchors": ["src/ef-args.c: main_, argc_cmds", "src/ef-exec.c: exec_cmds, rfds_wfds_process", "src/ef.c: frame_to_buf", "src/ef-buf.c: bequal_mask"]}
{"id": "C97", "title": "The order of the commands of a test", "statement": "Two tests with the same commands in different orders pass or fail together if the same frames arrive at each interface, in whatever order they arrive and whatever options and captures are given.", "quantifier": "every two tests in words with the same commands, every two executions of them (interleavings of system calls, arriving frames, ends of captures and deliveries of signals) in which the same frames arrive", "why_tests_cant": "The orders of n commands and of the frames that arrive are too many to try, and another order also numbers the interfaces differently.", "anchors": ["src/ef-args.c: argc_cmds, argc_cmd", "src/ef-exec.c: exec_cmds, rfds_wfds_process, copy_cmd_by_name"]}
