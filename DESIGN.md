# libfly in Rocq: design

## 1. Approach

The model is a set of total, computable Gallina functions in `rocq/theories/`, written function
by function from the C++ in `/repo/fly`, each definition citing file and lines. Bytes and code
units are `Z`/`N`; every place where C++ arithmetic wraps is written with an explicit `mod`;
undefined behaviour (over-wide shifts, out-of-bounds accesses, dereferencing an empty optional,
signed overflow) is a distinct outcome of the model, never silently totalised. Unbounded loops are
either structural recursion or fuelled recursion with a distinct `OutOfFuel` result which the
theorems exclude. Nondeterminism (thread schedules, priority-queue ties, short waits) is an
inductive step relation or an explicit oracle argument the theorems quantify over.

File naming, per component `X`:

* `X_Model.v`  - the model of the code (no proofs),
* `X_Spec.v`   - small independent specification (where one is needed),
* `X_Proofs.v` - lemmas,
* `X_Props.v`  - only the property theorems, each closed by `exact`, with `Print Assumptions`,
  together with `Example`s showing the hypotheses are met by concrete cases.

A property that is false of the faithful model is stated in full as a `Definition` and refuted by
a theorem `..._refuted` with a concrete witness; the strongest true version is then proved.

## 2. Plan per property

| id | model | proof |
|----|-------|-------|
| C01,C02 | writer/reader byte-and-buffer state machines with uint8/uint64 wrap | abstraction to bit lists; refinement of each write/read; induction over the op list |
| C03 | same, with UB outcome for shifts >= 64 | refutation (no masking, shift by 64) + exact characterisation of the safe cases |
| C04,C05 | reader over arbitrary bytes | invariant of reader state vs remaining bit list |
| C06-C08 | table-driven chunk coder with explicit buffer size, signed `char` indices | per-chunk finite/arith lemmas, induction over chunks; refutations at the buffer boundary and for bytes >= 0x80 |
| C09,C10,C12 | frequency count, nondeterministic min-merge tree, DFS lengths, insertion sort, limit, canonical form, header, symbols; decoder tables | Kraft invariants, canonical-code intervals, prefix table lookup, composition with C01 |
| C11 | decoder with bounds-checked arrays (UB outcome) | refutation by a concrete malformed header; safety under a Kraft guard; refinement of a bit-string level specification of arbitrary files (HuffmanFile_Spec), giving the outcome of every file and an exact characterisation of the harmful ones |
| C13 | tree merging relation | classical exchange argument |
| C14 | byte_swap by shifts/masks | bit-level arithmetic |
| C15 | Aggregator recursion mod 2^64 | induction; refutation of overflow detection |
| C16-C19 | unicode.hpp over lists of code units | arithmetic on ranges; spec = Unicode table 3-7; Unescape_Spec for the escape sequences |
| C20,C21 | classifier, lexer | case analysis / induction; refutation for signed char |
| C22-C25 | string utilities | induction; refutations for replace_all and wildcard_match |
| C26-C28 | address parsers/formatters on top of the lexer | round trip by digit lemmas; refutations of accepted-language claims |
| C29-C32 | Json value type, serializer, parser with fuel = input length; JsonRel_Model: !=, <=, >, >= | mutual induction over trees; the six operators against one order (JsonRel_Props) |
| C33 | INI parser line by line | induction; refutation for `=` runs |
| C34,C35 | monitor step relation over threads | invariants over all reachable states |
| C36,C37 | task runner / manager step relation; infinite executions under a (strongly) fair scheduler, Task_Fair_Spec | invariants over histories; liveness by rank arguments over fair executions |
| C38 | socket service step relation | invariants |
| C39 | BOM + transcoding of bytes | composition with C18 |
| C40,C41 | format-string scanner, integer formatter | induction |
| C42 | std::hash<Json> as a function of the variant index and the value's hash (a parameter) | induction over pairs of trees; refuted for numbers of different type |
| C43-C45 | one TCP/UDP socket with the requests it has in the service; what the system calls return is free | invariants over all histories relating the bytes on the wire and the bytes delivered to the calls; liveness (Socket_Fair_Props) over infinite executions, by induction on the position in the queue and the bytes left |
| C46-C48 | file logger over an abstract file system: every write is split into steps, every state is a crash point; compression is the Huffman model | invariant: files = records in order, cut at the size limit; well-founded measure for draining; refutations for chunk size 0, short devices, the default logger |
| C49 | logger registry, one step per critical section | invariant: registered = exists |
| C50 | path monitor + inotify as a queue of encoded event records, byte by byte | parser of the event buffer inverted; invariant on registrations over all interleavings; four refutations |
| C51-C54 | Json as container: every operation on a tree of instances, iterators as positions | finite maps / sequences as specification; frame theorems through references |
| C55 | conversions of Json values (JsonConv_Model; floating-point types in JsonFloat_Model) | arithmetic of casts; decimal texts (C41); rounding of numbers that need none (JsonFloat_Proofs); refutation of overflow detection |
| C56 | ConfigManager with any number of threads, update loop one step per config | invariant: live configs hold the section of the last parse; three refutations |
| C57 | Reply_Model: the wrappers around a callable (task_runner.hpp:351-770) on top of the runner's specification: history of calls, hand-overs, starts, returns, skips; owners as reference counts; variables that end. | Invariant over all histories; counting per call; a decreasing measure for termination |
| C58 | Handle_Model: socket objects, sockets of the operating system with reusable descriptors, moves, destruction, listen and accept, requests at the service. | Ownership read off the history; invariant over all histories; accounting of calls |
| C59 | System_Model: the bytes of /proc/stat and /proc/self/status scanned as getline and sscanf do, ::times and ::sysinfo free, doubles as Flocq's binary64; create and the chain of polls. | Text: induction over rendered files (System_Spec); percentages: Flocq's correctness of multiplication and division; histories: fields kept by polls that cannot read them |
| C60 | Float_Model: Formatter<floating point> (formatters.hpp:501-853, branch with std::to_chars); the text std::to_chars produces is the decimal text of Float_Spec, or the buffer's zeros when it does not fit. | Existence and uniqueness of printf's texts (Float_Spec: nearest decimal, ties to even); the scan for the alternate form is exact on them; four refutations |
| C61 | Join_Model: join_internal on top of the format model, generate_random_string over a sequence of drawn numbers. | Induction over the values; the format strings {} and {}{} are evaluated for each kind of value; split's theorem (C22) for the way back |
| C62 | Coder_Model: the public calls of coder.cpp over the coders of C06-C10; files as a map, with failures to open, read and write, and bytes the output stream still holds. | Case analysis of the call; the round trips of C07 and C09; four refutations |
| C63 | Styler_Model: modifiers, streams (bytes, base, width), the bytes of each modifier, a styler's life, the console sink. Styler_Spec has a small ANSI terminal | Terminal run over the emitted bytes, by induction over the modifiers; four refutations |
| C64 | Signal_Model: the steps of set_signal_handler and arrivals of signals between them | Invariant over all runs; three refutations |
| C65 | SysText_Model: get_error_string over FormatString_Model, local_time with strftime's text and buffer size | Direct; injectivity from positional notation |
| C66 | Diag_Model: both parsers with the stream's counters and the log | Induction over the parser with a position invariant; erasure to Json_Model and Ini_Model; refutations |
| C67 | Foreign_Model: the string formatter for values of another character type (formatters.hpp:59-153) | Case analysis over the alignment on top of C18; prefix-freeness of the encodings for cuts inside a character; two refutations |
| C68 | JsonWide_Model: strings, keys and maps of other character types (json.hpp:1585-1691, 2005-2027; string.hpp:811-834) | Exactness of transcoding (C18) composed with literals (C29); induction over entries with injectivity of encodings; one refutation |
| C69 | FloatStream_Model: Formatter<floating point> without std::to_chars (formatters.hpp:653-742) and stream_util.hpp; printf's text is the one of Float_Spec, std::num_put's padding is written out | The modifiers restore every state; case analysis over the options; agreement with C60 by uniqueness of the text and of the padding; three refutations |
| C70 | FloatRead_Model: converter.hpp:25-134, both implementations, with std::from_chars and std::stod written out over all texts and rounding over integers; FloatRead_Spec defines the texts and `nearest` over Q | Scanners are sound and complete for the grammar; rounding is the nearest by comparing with every representable number; round trip by the distance of the printed text (C60) against half a unit in the last place |
| C71 | No new model code: the JSON model (C29-C31) with its conversion parameter replaced by the models of C60 and C70 (`library` in JsonReal_Spec); FloatPrint_Proofs has an executable printf %g for existence and examples | Texts of %g have the JSON shape; a text of six digits read as the nearest long double prints as the same six digits (the error 2^-prec is below half a unit of the sixth digit, including at powers of ten); induction over documents |
| C72 | LogThreads_Model: one logger, any number of calling threads and the sequenced runner, every access to shared memory one step, m_index++ two; an arbitrary sink | Invariant: one agent at a time is in log_to_sink (always with a runner; without one if the calls do not overlap), and its position determines the numbers, the open sink call and the failure flag; a second invariant for order and completeness; concrete schedules for the refutations |
| C73 | JsonSets_Model: conversions between arrays and each kind of container, parametric in element type and its conversions; JsonSets_Spec: what a container holds after values were put into it | induction over the array with the invariant that the container holds the values seen; uniqueness of sorted lists with given classes |
| C74 | Assert_Model: the macro in both builds, the report with the styler model and the format-string model, captured values of any formattable type; Assert_Spec: what the terminal shows | the terminal of Styler_Spec reads the bytes written: each statement shows its text with its attributes and leaves the terminal normal; induction over the captured values |
| C75 | Components_Model: the getters of the five config classes over Config_Model's get_value and JsonConv_Model's conversions, and the Huffman encoder constructed from one; Components_Spec: the documented settings, as a table | C56's get_value_result and quiet_configs_match_the_file, C55's integer_conversion, C09's huffman_roundtrip composed; the refutations run reachable managers |
| C76 | LogPoint_Model: the macros and log functions over FormatString_Model's format_to and SysText_Model's get_error_string, the loggers by number with the records their sinks were given; LogPoint_Spec: a record handed to one logger and no other | C40's format_exact; LogPoint_Proofs: a format string stays one when a field and an argument are appended, and its output is the old one with the new field's behind it; refutations run the model |
| C77 | SockAddr_Model: the structures handed to bind, connect and sendto as bytes, the answers of getsockname, accept, recvfrom and getaddrinfo as parameters; SockAddr_Spec: socket addresses of ip(7) and ipv6(7) as bytes | byte lemmas of C01 (Endian), the texts of C26-C28 |
| C78 | JsonWhat_Model: the places where Json and its iterators throw, with the text given, and json_exception.cpp through the format functions of Format_Model and FormatString_Model; JsonWhat_Spec: the texts | agreement with the independent JsonApi_Model by cases, format_plain (C61), literal texts (C29), round trip (C30) |
| C79- | see sections 3 and 4, and the head comment of the model file named there | |

Whatever the status in MANIFEST.json: `proved` means that the theorems listed together state the English
property; `partial` that the property, as written, is false of the code (then a theorem `..._refuted` shows
it, by a concrete witness or for all states, and the other theorems prove the strongest true version found)
or that part of it is missing (then the note says which part, and the theorem's name ends in `_partial`).

## 3. Trusted base

* Coq 8.16.1's kernel (including `vm_compute` where a proof uses it) and the standard library.
* `Print Assumptions` of every theorem named in MANIFEST.json except those of C59 says "Closed under the global
  context": no axiom, not even of the standard library. The theorems of C59 speak about doubles with Flocq,
  whose definitions rest on the real numbers; for each of them it lists exactly these axioms of the standard library:
  `ClassicalDedekindReals.sig_not_dec`, `ClassicalDedekindReals.sig_forall_dec`,
  `FunctionalExtensionality.functional_extensionality_dep` and `Classical_Prop.classic`. `rocq/theories/Assumptions.v` (generated from
  MANIFEST.json, last in the build) prints this for each of them. The seven names
  `Coq.ssr.ssrunder.Under_rel.*` that vcheck reports as library axioms are declarations of Coq's own
  ssreflect plugin which become visible when the library is loaded; no theorem uses them. It also lists fields of
  `Coq.Reals.Rdefinitions` modules (the library's sealed definitions of real numbers), for the same reason.
* No `Axiom`, `Parameter`, section-less `Variable`/`Hypothesis`, functor or module type is defined;
  sections with `Variables` are closed, so that the theorems quantify over them.
* That the model says what the C++ does. This was written by reading the code; nothing was executed.
  The C++ side is: a conforming C++20 implementation, 8-bit bytes, 64-bit `size_t`; `char` signed or
  unsigned and both byte orders are covered where they matter (parameters `sg`, `t`, `host_big`); data-race
  freedom, and with it sequential consistency, is either proved (mutual_exclusion) or assumed where the
  head comment of the model says so.
* Platform functions that are parameters, quantified in every theorem: `strtold`/`from_chars` and the
  printing of floating-point numbers (in C60 and C70 they are specified instead), hash functions of the standard library, what system calls return,
  tie-breaking in heaps, time.

## 4. What is modelled, file by file (paths under /repo/fly)

| source | model | not modelled |
|--------|-------|--------------|
| types/bit_stream/* | BitStream_Model | the stream classes of std (a device is a byte list, optionally short) |
| types/numeric/endian.hpp, detail/byte_swap.hpp | Endian (in BitStream_Model, Endian_Props) | |
| types/numeric/literals.hpp, detail/literal_parser.hpp | Literal_Model | |
| types/string/detail/unicode.hpp; string.hpp (validate, convert, parse/escape) | Unicode_Model | |
| types/string/string.hpp: split, trim, replace_all, remove_all, wildcard_match, starts_with, ends_with, join, size, generate_random_string | Strings_Model; Join_Model (join, generate_random_string) | the random engine |
| types/string/detail/classifier.hpp, lexer.hpp | Lexer_Model | |
| types/string/formatters.hpp, detail/converter.hpp | Format_Model, Float_Model and FloatStream_Model (floating point), FloatRead_Model (text to floating point), Foreign_Model (strings of another character type) | the digits std::to_chars and std::num_put compute (specified in Float_Spec), pointers, ranges and user types (arbitrary functions in FormatString_Model) |
| types/string/detail/format_*.hpp, format.hpp | FormatString_Model | |
| types/concurrency/* | Concurrent_Model | |
| types/json/*, parser/json_parser.cpp | Json_Model, JsonApi_Model, JsonConv_Model, JsonFloat_Model (floating-point targets), JsonWide_Model (other encodings), JsonSets_Model (standard containers), Diag_Model (positions and warnings), JsonWhat_Model (exception texts) | reserve/capacity |
| parser/ini_parser.cpp | Ini_Model, Diag_Model (positions and warnings) | |
| parser/parser.cpp, parser.hpp | ParseFile_Model, Diag_Model (counters) | wording of the warnings |
| coders/base64/* | Base64_Model | |
| coders/huffman/* | Huffman_Model (what a file may contain: HuffmanFile_Spec) | coder_config (constants are parameters) |
| coders/coder.cpp | Coder_Model; encode_file also in Logger_Model | statistics |
| net/ipv4_address.hpp, ipv6_address.hpp, endpoint.hpp | Net_Model | |
| net/socket/socket_service.cpp, detail/nix select | Service_Model | |
| net/socket/tcp_socket.cpp, udp_socket.cpp, detail/base_socket.cpp, detail/nix/socket_operations.cpp | Socket_Model; Handle_Model (ownership of descriptors, moves, listen, accept; with listen_socket.cpp); SockAddr_Model (addresses, host names) | socket options |
| task/task_manager.cpp, task_runner.cpp, task_runner.hpp | Task_Model; Reply_Model (the wrappers around callables) | |
| logger/logger.cpp, log.cpp, detail/file_sink.cpp, detail/registry.cpp | Logger_Model, LogThreads_Model (several threads), Registry_Model | |
| logger/styler.hpp, styler.cpp, detail/styler_proxy.cpp, detail/nix/styler_proxy_impl.cpp, detail/console_sink.cpp | Styler_Model | win/, stream failures |
| path/path_monitor.cpp, path/nix/* | Path_Model | Windows implementation |
| config/* | Config_Model | |
| system/system_monitor.cpp, system/detail/nix/system_monitor_impl.cpp | System_Model | the kernel's counters |
| system/system.cpp, system/nix/system_impl.cpp | Signal_Model, SysText_Model | print_backtrace |
| logger/logger.hpp (macros, log functions), logger/log.cpp:13-17, logger/logger.cpp:176-220, logger/detail/registry.cpp:43-58 | LogPoint_Model | one thread, no task runner (C72), no times |
| coders/coder_config.*, logger/logger_config.*, net/network_config.*, path/path_config.*, system/system_config.* | Components_Model | durations are their counts |
| assert/assert.hpp, assert/detail/* | Assert_Model | the texts the compiler and print_backtrace give are parameters |
| concepts, fly.hpp, */win/*, */mac/* | none | compile-time constraints and platform queries: their behaviour is the compiler's or the operating system's |

Each model file's head comment lists its simplifications; each definition cites its lines.

## 5. Tests of the theorems

`seeded/LOG.jsonl`: every edit of a model definition that was tried (a realistic bug), the claim it
breaks and the theorems that no longer prove. Where an edit went unnoticed, `theorems_tightened` names the
theorem that was added or strengthened. An edit whose claim begins with a remark in parentheses does not
change what a user observes; it is there to show that the theorems do not fail for nothing.
