# easyframes: formal model and proofs – design

`ef` builds Ethernet frames from command line words, sends them, and compares
received frames with expected ones.  This directory contains a model of that
program in Coq (`rocq/theories`) and proofs of the properties listed in
`properties.jsonl`.

## How the code is modelled

* The model is an executable, total Gallina program, written function by
  function after the C code; each definition cites the file and lines it models.
* Bytes are integers (`Z`) in 0..255, buffers are lists of bytes, `argv` words
  are Coq strings (C strings have no NUL character; theorems hold for all Coq
  strings, NUL or not).
* Everything C leaves undefined, and every abnormal stop, is a *distinct
  outcome*: `Crash OOB_read | OOB_write | Null_deref | Uninit_ptr | Neg_size`
  (undefined behaviour), `Crash Assert_fail` (`assert` abort),
  `Crash Exit_call` (`exit()`), `Crash Out_of_model` (a frame or payload above
  2^27 bytes, where C `int` bit offsets would overflow) and `Crash Fuel` (the
  recursion fuel of a model function ran out; proved unreachable).
* C integers: `int` values that are bounded by the above size limit are `Z`;
  every place where the code relies on or suffers from wrap-around (`uint8_t`,
  `uint16_t`, `uint32_t` sums and counters, `size_t` subtraction) has the
  explicit reduction.
* Kernel and environment (sockets, `select`, clock, `send` results, child
  processes) are inputs of the model: a theorem "for all schedules" quantifies
  over them.
* Header templates (`ef-*.c` tables) are transliterated by
  `tools/gen_templates.py` into `Templates.v`, with the line of each table
  entry; the generated file is committed.

## Layers (files)

The model (no proofs in these files):

| file | models |
|---|---|
| `Base.v` | outcome type, byte buffers with bounds checks, C integer conversions |
| `Libc.v` | `strtoull`, `strtol`/`atoi`, `snprintf("%d")`, `inet_pton` (glibc behaviour) |
| `ParseBytes.v` | `ef-parse-bytes.c` |
| `Hdr.v` | `ef.h`, `ef.c`: fields, headers, `def_offset`, bit access, serialisation and mask of one header |
| `FieldParsers.v` | the `parser`/`parser_multi` functions of the headers (`ef-coap.c`, `ef-opcua.c`, `ef-profinet.c`, ...) |
| `Templates.v` | all header tables and `init` functions (generated from the C tables by `tools/gen_templates.py`) |
| `Fill.v` | `inet_chksum`, all `*_fill_defaults`, `frame_to_buf`, `frame_mask_to_buf` |
| `Frame.v` | `hdr_parse_fields`, payload and padding parsers, `argc_frame`, `print_hex_str` |
| `Cmd.v` | `argc_cmd`, `argc_cmds` (parsing), `getopt` as used by `main_` |
| `Exec.v` | `bequal_mask`, `add_cmd_to_resource`, `rfds_wfds_fill/process`, `copy_cmd_by_name`, `exec_cmds`, `main_` without captures |
| `Capture.v` | `capture_add`, start, SIGCHLD handler and stop of capture children |
| `Main.v` | the time-out arithmetic and the whole program: options, captures, commands, in order (`session`) |
| `Children.v` | captures as processes that end at any time, SIGCHLD delivered at any time: the steps of `capture_start`, `capture_all_start`, the receive loop, the sleeps, `capture_all_stop`, `wait_poll` under an arbitrary schedule (`run`, `concurrent`) |
| `Sockets.v` | the sockets, one system call at a time: `raw_socket`, the receive loop and the closing of `exec_cmds`, interleaved with arriving frames by an arbitrary schedule; the kernel's packet sockets as queues (`run`, `exec_with`) |
| `Together.v` | the program with its captures and its sockets at once: `Children.v`, in which the call of `exec_cmds` is one step, and `Sockets.v`, which is what `exec_cmds` does; a signal delivered in `select` makes it fail |
| `Forest.v` | `capture_start`, `capture_all_start` and the rest of the program in all processes, when `execl` may fail (`crowd`) |
| `Mem.v` | the same frames, headers, fields and commands as blocks of memory with pointers: `malloc`/`free`, `bclone`, `field_copy`, `hdr_clone`, `hdr_destruct`, `frame_clone`, `frame_free`, `cmd_destruct`, `argc_frame/cmd/cmds`, `copy_cmd_by_name`, `init`, `uninit` |
| `HelpTexts.v` | the help texts of headers and fields (generated by `tools/gen_templates.py`) |
| `Report.v` | what is printed: the lines about frames, `print_help`, `print_version`, `field_help`, `hdr_help`, and the messages of the parsers, on stdout and stderr (`main_says`) |
| `BufList.v` | buffers and lists of buffers on a heap, as the library offers them: `balloc`, `bclone`, `bfree`, `bequal`, `bprintf`, `ble_*`, `bl_*` |
| `Conformance.v` | the project's own test vectors evaluated on the model (tests of the model, not proofs) |

The specifications (small, independent of the model's helpers; they use at most
the data types of the model):

| file | specifies |
|---|---|
| `SpecText.v` | numerals, MAC, IPv4, IPv6 texts, data pieces |
| `SpecBits.v` | the integer in a bit range of a byte list |
| `SpecFrame.v` | where headers and fields are placed; matching under a mask |
| `SpecParse.v` | words of a header, which values are given, over-long words, `regular` headers |
| `SpecOrigin.v` | when an mld header lacks its addresses |
| `SpecSum.v`, `SpecFill.v` | RFC 1071 sums, pseudo headers, RFC 7252 options, length and next-header rules |
| `SpecLayout.v` | the published header formats (IEEE 802.3/802.1Q/1588, RFC 791, 8200, 792, 4443, 768, 793, 826, 3376, 3810, 7252 ...), field by field, and the registered ethertypes and protocol numbers |
| `SpecWhole.v` | what a frame written in words means, end to end |
| `SpecExact.v` | the same down to the last bit: every field that is not given |
| `SpecExec.v` | histories of a run: what is received, sent, expected, missing |
| `SpecMain.v` | clock, life cycle of a capture, reading of the options |
| `SpecMem.v` | which blocks of memory stand for which field, header, frame, command |
| `SpecReport.v` | lines and entries of a report; which frames a run shows |
| `SpecHelp.v` | reading the tables of the help, syntax lines and examples of the usage; texts that look like a value |
| `SpecDoc.v` | the help as the description of frames |
| `SpecSay.v` | the operands of a command line with options in it |
| `SpecForm.v` | frames of all parts of published format: forms that depend on the fields given, CoAP options and payload, raw bytes anywhere |
| `SpecWish.v` | the same frames with the words ign and ignore: which fields are left out, which bits are disregarded |
| `SpecChildren.v` | captures as processes: what was started, signalled, polled; the two conditions on schedules |
| `SpecForest.v` | the processes that come of a program whose captures cannot be executed |
| `SpecProgram.v` | fewer frames than the exit status can count; a world that is cut short (C90) |
| `SpecSockets.v` | what arrived, was thrown away and was taken; the life of a socket; executions with all system calls (C91, C92) |
| `SpecProgress.v` | executions that may not be over, counting steps, time-outs, frames and sends that make no trouble (C93) |
| `SpecWire.v` | tests in words and what arrives at the interfaces: sockets in proper use, frames on the wire, all as expected (C94) |
| `SpecTogether.v` | what is seen of the captures and of the sockets, programs that are underway, fair schedules (C95) |
| `SpecDevice.v` | tests that expect back what they send; what a device passes on (C96) |
| `SpecOrder.v` | names a test defines; executions in which the same frames arrive (C97) |
| `SpecTest.v` | whole tests: steps (send, expect, name), how they are written, what they say about the frames on the wire, which are proper |
| `SpecList.v` | chains of list elements, programs that use lists, text of a list |

`BaseFacts.v` and `P*.v` hold the lemmas and proofs; `Properties*.v` hold only the
theorems named in `MANIFEST.json`, each with `Print Assumptions` and a concrete
case that meets its hypotheses.

## Plan per property

| id | modelled / how proved |
|---|---|
| C01 | `parse_bytes` on rendered numerals; induction on digits of a renderer defined in the spec |
| C02 | `parse_bytes` equals a declarative numeral reader for all strings without '.'/':' |
| C03 | length invariant through every branch of `parse_bytes` |
| C04 | MAC automaton; invariant over rendered octet lists; the `0b` prefix exception is stated (refutation of the unrestricted claim) |
| C05 | MAC automaton with bounds-checked accesses never crashes; octet count bound |
| C06 | glibc `inet_pton4` model; round trip and grammar |
| C07 | glibc `inet_pton6` model; round trip for all group lists |
| C08 | `parse_bytes_hex/binary` with bounds checks; partial for literals that fit, refuted for longer ones |
| C09 | `print_hex_str`/`parse_var_bytes_hex` round trip by induction on the byte list |
| C10 | `parse_var_bytes` equals the concatenation of a per-piece denotation |
| C11 | refuted: silent fall back to the default; exact behaviour proved |
| C12 | bit-level loop invariant, lifted to big-endian integers |
| C13 | same loop with bounds checks: outcome is either assertion or success |
| C14 | decidable check over the finite template table, by computation |
| C15 | fold over fields and headers using C12 for disjoint ranges |
| C16 | same fold, lengths and zero tail |
| C17 | same fold in mask mode |
| C18 | C17 + C19; refuted for overlay fields, proved for the others |
| C19 | loop of `bequal_mask` against the bitwise definition |
| C20 | refuted (out-of-bounds read); proved for n = 0 |
| C21 | modular arithmetic mod 65535; exact condition for correctness, refuted in general |
| C22 | C21 + C15 for the IPv4 header |
| C23 | symbolic execution of the fill function; equality with a spec over emitted bytes |
| C24 | same |
| C25 | C15 + computed value of the filled field |
| C26 | C15 + computed value of the filled field |
| C27 | case analysis over all fill functions |
| C28 | case analysis over all fill functions |
| C29 | idempotence for all other headers; refuted for igmp/mld/sv/coap-opt |
| C30 | RFC 7252 decoder in the spec; three ranges for delta and length |
| C31 | field parser + layout |
| C32 | refuted (`0.0:`); exact accepted set proved |
| C33 | fuel argument, induction on words |
| C34 | induction on words (prefix stability); refuted without the 100 word condition |
| C35 | induction on assignments |
| C36 | global invariant of headers under parsing and filling; exact list of exceptions, each with a witness |
| C37 | case analysis of `argc_cmds`/`main_` |
| C38 | refuted (`tx IF`), proved for the complement |
| C39 | induction on the command list |
| C40 | induction on the command list |
| C41 | invariant of the receive step over arbitrary event sequences |
| C42 | multiset argument by induction on received frames |
| C43 | refuted for masks, proved for exact expectations |
| C44 | projection of the event sequence on one interface |
| C45 | refuted with a pending tx command, proved without |
| C46 | invariant sent + remaining = requested over arbitrary schedules; refuted for `rep 0` and on interfaces that also receive |
| C47 | refuted |
| C48 | refuted (256 errors), exact condition proved |
| C49 | list equation |
| C50 | C09 + C10 + C16 |
| C51 | string equation against a spec of the option list |
| C52 | arithmetic, `lia` |
| C53 | C01 + byte swap |
| C54 | decidable check over the templates; refuted for duplicates and the keyword collision, exact list given |
| C55 | symbolic execution of the mld filler; same sum as C23 over the emitted bytes |
| C56 | induction on words, header by header |
| C57 | progress: every step of the loop returns, given no padding and messages of 12 bytes; refuted with padding |
| C58 | `argc_cmd` against a grammar of the command words |
| C59 | invariant of the capture table over start, arbitrary child exits and stop |
| C60 | trace equation of the whole run |
| C61 | `getopt` loop against "options anywhere" permutation; induction on the words |
| C62 | trace of a refused command line; refuted for `-c` files, proved that this is the only effect |
| C63 | comparison of the templates with a table written from the standards (computation), lifted to emitted frames by C15 and C35 |
| C64 | all pairs of header types in the registered tables (computation), lifted to emitted frames by C26 |
| C65 | composition of C01-C10, C35, C36, C63: the text of a frame determines its bytes |
| C66 | C17 for accepted frames (layout invariant of the parsed headers through the fillers) + C19 + C58: what a command accepts, bit by bit; refuted for short SV headers |
| C67 | the same layout invariant makes every write of the mask succeed; which fields can end behind the frame (`PRoom.v`): those an igmp, mld or sv message does not have; refuted for MLD |
| C68 | refinement: every operation of `Mem.v` simulates the one of the value model, with the footprint (set of owned blocks) as invariant |
| C69 | same footprints at the end of the process, and an invariant that says when a block is lost; refuted for three OAM templates and over-long tokens and MEG identifiers |
| C70 | disjoint footprints of copy and original |
| C71 | existence: C65 with C22-C26 for the fields that are worked out; uniqueness: the formats cover every bit, induction from the last header to the first because a checksum depends on what follows |
| C72 | text of each event, parsed back by the reader of `SpecReport.v`; injectivity of the text for unambiguity; C39, C41 and C47 for the names |
| C73 | lines of stderr counted; refuted for refused lines |
| C74 | instrumented parser proved to agree with the plain one, then comparison of the tables in the texts with the templates (computation over the templates, any word) |
| C75 | instrumented `parse_bytes`; refuted for numbers with bad characters |
| C76 | every refusing branch of the instrumented parser prints; refuted for `data` and `padding` |
| C77 | the help text of every fixed header read back (`SpecDoc.v`): rows, sizes, announced defaults; induction over the headers of the line; per bit, the last given field in table order wins; refuted for `ifh-la v-rsv1` and `ifh-mas` followed by `rtag` |
| C78 | composition: options (C61), words to frame (C71, C77), the parser says nothing for a well-written line (induction over pieces and headers, `PSay.v`), printing (C60) |
| C79 | `BufList.v`: heap with list elements; representation invariant (disjoint chains that own all used blocks), induction over the history; termination of `ble_tail`/`ble_free` because a chain has no more elements than the heap blocks |
| C80 | same heap, assertions on or off as a parameter; refuted as stated (four ways), proved when there is room |
| C81 | same heap; single calls |
| C82 | as C71, with the forms of `SpecForm.v`: each part leaves a header whose layout is that of its form (`PForm.v`-`PForm4.v`), the worked out fields by C22-C32 and C55, uniqueness by the same induction from the last part to the first |
| C83 | the words of C82 with ignore words parse to the same headers, the skip flags being those of the last word of each field (`PWish.v`, `PWish2.v`); the fields of an emitted header are those of its form (`fit`, `PWish3.v`); hence the bits that count (C17) are those outside the ignored fields |
| C84 | the words that follow a frame do not change it (`asked_before`), so each step of a proper line is its command (`PTest.v`); the named frames filled in are those of the first definitions (`PTest2.v`); then C41, C43, C46, C49 and C57, with C83 for the frames accepted (`PTest3.v`) |
| C85 | the program as a list of steps, interleaved with ends of captures and deliveries of SIGCHLD by an arbitrary schedule (`Children.v`); invariants `tidy` and `kin` (every capture not yet ended is marked running with its pid, or its marking is still to come), kept by every step (`PChildren.v`, `PChildren2.v`); decomposition of complete runs at the two signal loops (`PChildren3.v`, `PChildren4.v`) |
| C86 | converse invariant `right_idea` (what is marked running has not been waited for) under the two conditions; counterexamples without them (`PChildren5.v`) |
| C87 | a weight that every step decreases; the program can always take a step |
| C88 | invariant of the receive loop: rounds done and rounds to come add up, or select was interrupted after a capture had ended (`PChildren6.v`); refuted in general |
| C89 | the processes are named by the captures at which they came into being; induction over the captures still to be started gives their names (`grows`, `PForest.v`), their lists of captures (`known`), and with these what each does (`PForest2.v`); refuted |
| C90 | C61 gives the words of the test, C88 the rounds in which the program listens, C84 the verdict on them; the errors are counted by the received and the expected frames (`few_errors`, `PProgram.v`), so that fewer than 256 of these make the status the verdict; refuted without |
| C91 | the program as a list of system calls, interleaved with arrivals at any interface (`Sockets.v`); the steps classified (`move`, `PSockets2.v`), invariants kept by each: what was queued is what was dropped, taken and is still there (`known`, `PSockets3.v`), tags and what was judged (`PSockets4.v`), a socket is usable when it is empty, or after 10000 turns, or after a failure (`settled`), the turns so far are those of `main_loop` (`loops`, `PSockets5.v`); refuted in five ways; conversely for every run of C37-C50 a schedule is built in which each frame arrives just before it is read (`PSockets8.v`) |
| C92 | the same invariants: `life` is an automaton for the calls of one socket; sockets in use, file descriptors different (`course`), a socket reported readable has something to read (`fed`); refuted for a failing socket |
| C93 | every instruction has a cost (10007 for a socket that is still to be made) and every step of the program lowers the sum; the sum is bounded in all reachable states; progress by the invariants of C91, C92 and the totality of judging and sending (C57); refuted with padding |
| C94 | C84 (tests in words, turns of the loop given) composed with C91 (where the turns come from): what was delivered is what was taken, which is a first part of what arrived; healthiness of the turns from that of the schedule (`clean`, `PProgress.v`); that a test can be passed by building the turns and `C91_every_run` |
| C95 | the product of `Children.v` and `Sockets.v`, coupled at `exec_cmds` and at `select` (`Together.v`); every schedule projects to one of each (`run_parts`, `PTogether.v`), so C85-C88 and C91-C94 apply; invariants with phases (before, during, after the test) for what covers what; schedules of the parts are put together (`every_way`) and completed (`program_ends`, `PTogether2.v`) |
| C96 | C95 and C84_sent: the frames sent are those the words describe, and a frame without ignored fields is met by its own bytes only, so pairing off with the expectations is being a permutation of what was sent (`expected_back`, `PDevice.v`); an execution that passes is built from rounds in which each frame arrives (`device_can`) |
| C97 | C95 gives the verdict as pairing off of arrivals with expectations, which is kept by permutations of both (`expected_perm`, `POrder.v`); names defined once mean the same in every order (`meaning_perm`); any reordering that keeps the meanings will do (`meanings_free`), so two executions of one test have one outcome (`one_outcome`); refuted for names defined twice and for "rx IF" before a definition |

## What is modelled and what is not

| file in /repo/src | modelled | not modelled |
|---|---|---|
| `main.c` | `main` (calls `main_`) | – |
| `ef-args.c` | `argc_frame`, `argc_cmd`, `argc_cmds`, `main_`, `print_help`, `print_version`, the messages | – |
| `ef.c` | fields, headers, offsets, defaults, bit access, field parsing, serialising, masks, `inet_chksum`, ethertype filling, `frame_def`, `print_hex_str`, the order of the templates in `init`, copies and destructors (`Mem.v`), `field_help`, `hdr_help`, `hexdump` (not called by the program) | – |
| `ef-parse-bytes.c` | everything | – |
| `ef-buf.c` | `balloc`, `bclone`, `bfree`, `bequal_mask`, `po`, `pe`, `bprintf` (as text); `BufList.v`: the whole library part, with `bequal`, `ble_*`, `bl_*` and a failing `calloc` | – |
| `ef-exec.c` | `add_cmd_to_resource`, `rfds_wfds_fill`, `rfds_wfds_process`, `copy_cmd_by_name`, `pcap_append` (which frames, which file), `exec_cmds`; `raw_socket` (`Sockets.v`; only success or failure in `Exec.v`) | the kernel's part of the sockets: packet sockets are queues that do not overflow, an index of 0 means all interfaces; the pcap file format (libpcap) |
| `ef-capture.c` | `capture_add`, `capture_push`, `capture_by_pid`, `signal_child`, `capture_start`, `capture_all_start`, `wait_poll`, `capture_all_stop` | the processes themselves (their exits are an input of `Capture.v`, a choice of the schedule in `Children.v`), `execl` failing in the interleaved model (it is in `Forest.v`, which has no schedule), `po` called from a signal handler, `system`-level effects of `tcpdump` |
| `ef-*.c` (headers) | all tables, parsers and fill functions, which templates `*_uninit` frees | – |

Simplifications, all cited in the definitions concerned:

* Memory is unlimited: `malloc` does not fail.  Most of the model has no pointers:
  copies of headers and frames are values there.  `Mem.v` has pointers, and C68
  shows that it computes the same.  In `Mem.v` addresses are not reused; a field
  parser or fill function is one step, which stores the values the value model
  computes (their temporaries - pseudo headers, checksum buffers - are not
  blocks); options and captures are not there; `hdr_tmpls[..] = 0` in the uninit
  functions and the `memset` of objects about to die are left out.
* Frames and data above 2^27 bytes are `Out_of_model` (C `int` offsets in bits).
* The kernel is an input: results of `socket`, `select`, `recvmsg`, `send`, the
  clock, `fork` results and the exits of children are arbitrary lists or
  functions over which the theorems quantify.  `execl` succeeds except in `Forest.v`;
  `gettimeofday` does not overflow `time_t`.
* `getopt` is GNU `getopt` without `POSIXLY_CORRECT` (it permutes its arguments).
* Reads outside a buffer are crashes; what a real out-of-bounds read would return
  is not modelled.
* Diagnostics: `Report.v` has the texts on stdout and stderr. Left out: the
  messages before `exit()` in the mld parser (such lines are `Exit_call`), those
  with `%m` of socket and pcap failures, those of `getopt` itself, the lines about
  the processes of captures. `__FILE__` is the path below the project.

## Restrictions in theorems

* `regular` headers (`SpecParse.v`): not an `sv` header with fields of TLV0 but
  none of TLV2, and not an `mld` header that mixes fields of queries and of
  reports.  Serialising other headers may stop in an assertion
  (`C36_irregular_refuted`).
* `modest` frames (`SpecOrigin.v`): at most 2^27 bytes.
* `size_limit` = 2^27.

## Findings

The theorems called `..._refuted` are defects, or at least surprises, of the code:

* a text starting with `0b` is never a MAC or IPv6 address (C04, C07)
* a literal too long for a field above 64 bits accesses memory in front of the buffer (C08, C36)
* an unreadable field value is silently replaced by the default (C11)
* using `ign` anywhere in an expectation with an MLD message stops the program at an assertion, unless data follows it; the same for IGMP and SV behind more headers than usual (C67)
* SV without its last part: two absent fields are compared in the bytes of the next header (C66)
* overlay fields: ignoring one does not free its bits (C18)
* `padding n` reads behind the expected frame and never matches (C20, C57)
* the checksum folds its carries once only (C21 to C24, C55)
* serialising twice shrinks igmp, mld and sv headers and garbles coap options (C29)
* `coap code` accepts one character beyond the digits (C32)
* `coap-parms par` without data uses an uninitialised pointer (C36)
* `tx IF` and `tx IF rep` dereference a null pointer (C38)
* the first matching expectation takes a frame, so the verdict may depend on the order (C43)
* received frames may consume transmit commands (C44, C45); `rep 0` sends 2^32 frames (C46)
* a failed or unsent transmission is no error (C47); 256 errors give exit status 0 (C48)
* tags of messages below 12 or above 32763 bytes (C49)
* four fields can never be set (C54)
* capture files are removed although the command line is refused (C62)
* the default values of oam-lb, oam-lt and oam-raps are never freed; a CoAP token above 8 bytes and a MEG identifier above 48 bytes leak buffers (C69); a refused command line does not free its earlier commands (the process ends)
* wrong next-header numbers for IP in IP, mld, and icmp over IPv6 with a given checksum (C64)
* a name with a newline forges lines of the report (C72)
* the messages about a refused line go to stdout, stderr stays empty (C73)
* the help lists a field `ignore` of profinet-rtc that cannot be set (C74)
* `eth et 12z` and the MAC address `0b:0:0:0:0:1` are dropped without a message (C75)
* `hex eth padding x` and `hex eth data hex` are refused without any output (C76)
* the help says that field v-rsv1 of ifh-la must be 1; it has no default and is 0 (C77)
* header rtag directly behind ifh-mas is taken for the field rtag of ifh-mas (C77)
* `hex data ascii -v` prints the version instead of the frame; a `--` is needed before words that start with a dash (C78)
* `bl_printf_append` never returns (`bl_check` ends in `assert(0)`); with NDEBUG the element it allocates is never linked, so the text is lost and the block leaks (C80)
* `bl_init` frees the uninitialised head of the list it is to initialise (C80)
* `bl_to_buf`, `bset_value` and `bwrite_all` are declared but not defined
* a capture that ends before its pid is stored is believed to run: twenty seconds of waiting, then SIGINT and SIGTERM to a pid that is free (C86); the same when a pid is used again
* the SIGCHLD of a capture that ends interrupts `select`, and the program stops listening: the test may fail (C88) even if the frames expected arrive while it should still listen (C95); it also cuts the sleeps short
* a capture whose fork fails is not reported (C88)
* a capture whose shell cannot be executed leaves a second copy of the program, which executes the test again and signals captures it did not start; without `/bin/bash` the number of processes doubles with every `-c` (C89)
* the index of an interface is looked up twice; if it vanishes in between, the socket listens to all interfaces (C91)
* what arrives before a socket is bound is thrown away afterwards, at most 10000 frames of it, and only until reading fails (C91)
* a failing PACKET_AUXDATA is not noticed: the result of the call before is checked (C91)
* frames that `select` reports when the time is over are not read (C91)
* if a socket fails, those made before it are not closed (C92)
* a frame that arrives too late to be read, and one that could not be sent, leave a test of a device with status 0 (C96)
* of two definitions of a name the first is used, without a message; `rx IF` directly before a definition is read as `rx IF name N`, so that the order of commands counts (C97)

## Trusted base

* Coq 8.16.1: its kernel, including the virtual machine used by `vm_compute`.
* `Print Assumptions` stands beneath every theorem of `Properties*.v` and reports
  *Closed under the global context* for each of them: no axiom is used, neither
  our own nor of the standard library.
* The standard library (`ZArith`, `List`, `String`, `Ascii`, `Lia`, `Permutation`,
  `Sorting`) is the only library used.
* The model: that the definitions of the model files say what the C code does.
  They were written by reading; `Conformance.v` evaluates the project's own test
  vectors on the model as a check.
* `tools/gen_templates.py`, which transliterates the C tables (its output is
  committed and can be compared with the tables line by line).
* The specifications, in particular the table of published formats in
  `SpecLayout.v`.

Seeded defects (`seeded/LOG.jsonl`): the model was edited in a scratch copy as a
programming error would, one definition at a time, and rebuilt with every failing
proof skipped; the log says which theorems failed.
