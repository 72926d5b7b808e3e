{"id": "C01", "title": "Bit stream round trip", "statement": "If a sequence of unsigned values is written to a BitStreamWriter, each with write_bits(value,size) where value fits in size bits, and finish() is called, then a BitStreamReader on the resulting bytes that reads the same sizes in the same order returns exactly the written values, each read reports the full size, and fully_consumed() is then true.", "quantifier": "every finite sequence of (value,size) writes, of every length and mix of sizes accepted by the API", "why_tests_cant": "unbounded sequences; a carry between 64-bit buffer refills depends on the whole history of sizes modulo 64", "anchors": ["fly/types/bit_stream/bit_stream_writer.hpp:write_bits", "fly/types/bit_stream/bit_stream_writer.cpp:finish", "fly/types/bit_stream/bit_stream_reader.hpp:read_bits", "fly/types/bit_stream/bit_stream_reader.cpp:refill_buffer"]}
{"id": "C02", "title": "Bit stream file layout", "statement": "After finish() the stream holds one header byte (5-bit magic 0x1a, 3-bit count of padding bits) followed by the written bits, most significant first, zero padded to a whole number of bytes: its length is 1 + ceil(total bits / 8).", "quantifier": "every sequence of writes", "why_tests_cant": "sizes are unbounded; the header is rewritten by a seek at the end", "anchors": ["fly/types/bit_stream/bit_stream_writer.cpp:finish,flush_header", "fly/types/bit_stream/detail/bit_stream.hpp", "fly/types/bit_stream/detail/constants.hpp"]}
{"id": "C03", "title": "write_bits writes exactly the low bits", "statement": "write_bits(value,size) appends exactly the size least significant bits of value and changes no previously written bit, for every value of the data type and every size up to its width, without undefined behaviour.", "quantifier": "every value, every size, every prior history of writes", "why_tests_cant": "the failing cases depend on the buffer position left by earlier writes", "anchors": ["fly/types/bit_stream/bit_stream_writer.hpp:write_bits"]}
{"id": "C04", "title": "Bit stream reader is safe and exact on arbitrary bytes", "statement": "For any byte sequence: the reader rejects it (stream fail bit set, every read returns 0 bits) exactly when it is empty or the top five bits of its first byte are not the magic number; otherwise successive reads deliver the payload bits in order, never more than 8*(n-1) minus the header's remainder count in total, a short read returns the remaining bits left aligned within the requested size, and no shift or position arithmetic overflows.", "quantifier": "every byte sequence and every sequence of read_bits/read_byte/read_word calls", "why_tests_cant": "adversarial files and every call sequence", "anchors": ["fly/types/bit_stream/bit_stream_reader.cpp", "fly/types/bit_stream/bit_stream_reader.hpp:read_bits,peek_bits"]}
{"id": "C05", "title": "Peeking does not consume", "statement": "peek_bits(size) followed by discard_bits of the returned count is the same as read_bits(size); a second peek returns the same bits; and the bits seen later are unaffected by any earlier peek.", "quantifier": "every stream, state and size up to 32", "why_tests_cant": "state dependence on refill timing", "anchors": ["fly/types/bit_stream/bit_stream_reader.hpp:peek_bits,discard_bits"]}
{"id": "C06", "title": "Base64 encoding is RFC 4648", "statement": "encode_string succeeds on every input and its output is the RFC 4648 base64 text of the input (alphabet, padding, length 4*ceil(n/3)), independent of how the internal buffers chunk the input.", "quantifier": "every byte string of every length", "why_tests_cant": "internal 192 KiB chunking makes the long-input behaviour untestable exhaustively", "anchors": ["fly/coders/base64/base64_coder.cpp:encode_internal,encode_chunk"]}
{"id": "C07", "title": "Base64 round trip", "statement": "decode_string(encode_string(x)) succeeds and yields x.", "quantifier": "every byte string", "why_tests_cant": "holds or fails depending on length modulo the internal buffer size (196608), which sampled tests miss", "anchors": ["fly/coders/base64/base64_coder.cpp:decode_internal", "fly/coders/base64/base64_coder.hpp"]}
{"id": "C08", "title": "Base64 decoder validation and memory safety", "statement": "decode_string accepts exactly the well-formed base64 strings (length multiple of 4, alphabet symbols, padding only as the last one or two symbols), and never indexes a table or buffer out of bounds for any input.", "quantifier": "every byte string", "why_tests_cant": "adversarial inputs, all byte values, all lengths", "anchors": ["fly/coders/base64/base64_coder.cpp:decode_chunk,decode_internal,encode_internal"]}
{"id": "C09", "title": "Huffman round trip", "statement": "For every input and every encoder configuration with chunk size >= 1 KiB and maximum code length between 8 and 15, HuffmanDecoder applied to HuffmanEncoder's output succeeds and reproduces the input exactly, whichever way priority queue ties are broken.", "quantifier": "every byte string, every configuration, every tie-breaking of the priority queue", "why_tests_cant": "needs every frequency distribution and chunk count", "anchors": ["fly/coders/huffman/huffman_encoder.cpp", "fly/coders/huffman/huffman_decoder.cpp", "fly/coders/huffman/types.cpp"]}
{"id": "C10", "title": "Huffman codes are a length-limited prefix code", "statement": "For every chunk the codes emitted have length at most the configured maximum, satisfy the Kraft-McMillan inequality, are canonical, and no code is a prefix of another, even after length limiting.", "quantifier": "every frequency table over at most 256 symbols, every maximum length 8..15", "why_tests_cant": "length limiting triggers only on skewed (Fibonacci-like) distributions", "anchors": ["fly/coders/huffman/huffman_encoder.cpp:create_codes,limit_code_lengths,convert_to_canonical_form"]}
{"id": "C11", "title": "Huffman decoder is memory safe on arbitrary input", "statement": "decode_string on any byte string either fails or succeeds without writing or reading outside its code array, prefix table and chunk buffer.", "quantifier": "every byte string", "why_tests_cant": "adversarial headers", "anchors": ["fly/coders/huffman/huffman_decoder.cpp:decode_codes,convert_to_prefix_table,decode_symbols"]}
{"id": "C12", "title": "Huffman encoder success means decodable", "statement": "Whenever HuffmanEncoder reports success, the output decodes back to the input (no configuration silently discards data).", "quantifier": "every configuration and input", "why_tests_cant": "configuration corner cases (chunk size 0, tiny maximum length)", "anchors": ["fly/coders/huffman/huffman_encoder.cpp:encode_binary", "fly/coders/coder_config.cpp", "fly/logger/detail/file_sink.cpp:create_log_file"]}
{"id": "C13", "title": "Huffman tree optimality", "statement": "The code lengths taken from the tree minimise total encoded size over all prefix codes for the chunk's frequencies (when no length limit applies), whichever way ties are broken.", "quantifier": "every frequency table, every competing prefix code", "why_tests_cant": "quantifies over all competing codes", "anchors": ["fly/coders/huffman/huffman_encoder.cpp:create_tree"]}
{"id": "C14", "title": "Endian swap", "statement": "endian_swap is an involution that reverses the byte order of any 1, 2, 4 or 8 byte integer; converting to big endian and storing in memory yields the bytes most significant first.", "quantifier": "every value of each width", "why_tests_cant": "2^64 values", "anchors": ["fly/types/numeric/endian.hpp", "fly/types/numeric/detail/byte_swap.hpp"]}
{"id": "C15", "title": "Numeric literal parsing", "statement": "The _u8.._i64 literal suffixes denote the value C++ assigns to the literal (decimal, octal, hex, binary, digit separators) when it fits, and are rejected when the value does not fit the type.", "quantifier": "every literal token", "why_tests_cant": "unbounded token length; overflow", "anchors": ["fly/types/numeric/detail/literal_parser.hpp"]}
{"id": "C16", "title": "UTF-8 encode/decode round trip", "statement": "encode_codepoint succeeds exactly on Unicode scalar values, and decoding the result returns the codepoint and consumes exactly the encoded units - for UTF-8, UTF-16 and UTF-32.", "quantifier": "every 32-bit codepoint value and every suffix", "why_tests_cant": "2^32 codepoints times arbitrary suffixes", "anchors": ["fly/types/string/detail/unicode.hpp:encode_codepoint,decode_codepoint,codepoint_to_string,codepoint_from_string"]}
{"id": "C17", "title": "Unicode validation accepts exactly well-formed text", "statement": "validate() returns true exactly on well-formed UTF-8/16/32 (no overlong forms, surrogates, truncated sequences or values above U+10FFFF).", "quantifier": "every unit sequence", "why_tests_cant": "infinitely many malformed sequences", "anchors": ["fly/types/string/detail/unicode.hpp:validate_encoding,codepoint_from_string,create_codepoint_from_surrogates"]}
{"id": "C18", "title": "Transcoding preserves text", "statement": "convert<T>() between UTF-8, UTF-16 and UTF-32 succeeds exactly on valid input, preserves the codepoint sequence, and converting back yields the original string.", "quantifier": "every string, every pair of encodings", "why_tests_cant": "unbounded strings", "anchors": ["fly/types/string/detail/unicode.hpp:convert_encoding,convert_encoding_into", "fly/types/string/string.hpp:convert"]}
{"id": "C19", "title": "Unicode escape/unescape", "statement": "escape_all_codepoints yields printable ASCII only and unescape_all_codepoints inverts it, for both \\u (surrogate pair) and \\U styles.", "quantifier": "every valid Unicode string", "why_tests_cant": "unbounded strings; interaction with literal backslashes", "anchors": ["fly/types/string/string.hpp:escape_all_codepoints,unescape_all_codepoints", "fly/types/string/detail/unicode.hpp:escape_codepoint,unescape_codepoint"]}
{"id": "C20", "title": "Character classification", "statement": "is_digit/is_x_digit/is_alpha/is_upper/is_lower/is_space hold exactly on the ASCII classes, and to_upper/to_lower change exactly the letters, for every character of every character type.", "quantifier": "every value of char, wchar_t, char8_t, char16_t, char32_t", "why_tests_cant": "wide character types have 2^32 values and char is signed", "anchors": ["fly/types/string/detail/classifier.hpp"]}
{"id": "C21", "title": "Lexer number consumption", "statement": "consume_number/consume_hex_number consume exactly the maximal run of digits at the current position and return its value; positions never pass the end.", "quantifier": "every string and position", "why_tests_cant": "unbounded digit runs (overflow)", "anchors": ["fly/types/string/lexer.hpp:consume_number,consume_hex_number"]}
{"id": "C22", "title": "split", "statement": "split returns the non-empty delimiter-free pieces of the input in order; joining semantics with a count limit: at most count elements.", "quantifier": "every string, delimiter, count", "why_tests_cant": "unbounded strings", "anchors": ["fly/types/string/string.hpp:split"]}
{"id": "C23", "title": "trim", "statement": "trim removes exactly the maximal leading and trailing whitespace; idempotent.", "quantifier": "every string", "why_tests_cant": "unbounded strings", "anchors": ["fly/types/string/string.hpp:trim"]}
{"id": "C24", "title": "replace_all / remove_all terminate and remove every occurrence", "statement": "replace_all terminates for every non-empty search string and afterwards the target contains no occurrence; remove_all leaves no occurrence.", "quantifier": "every target, search, replacement", "why_tests_cant": "termination is not testable", "anchors": ["fly/types/string/string.hpp:replace_all,remove_all"]}
{"id": "C25", "title": "wildcard_match", "statement": "wildcard_match(source,pattern) is true exactly when source matches pattern with * matching any substring.", "quantifier": "every source and pattern", "why_tests_cant": "infinitely many patterns", "anchors": ["fly/types/string/string.hpp:wildcard_match"]}
{"id": "C26", "title": "IPv4 text round trip and parsing", "statement": "Formatting any IPv4 address and parsing it back yields the address; from_string accepts exactly the 1-4 part decimal dotted forms with in-range parts and gives the standard inet_aton value.", "quantifier": "every address, every string", "why_tests_cant": "2^32 addresses, unbounded strings", "anchors": ["fly/net/ipv4_address.hpp:from_string,Formatter"]}
{"id": "C27", "title": "IPv6 text round trip and parsing", "statement": "Formatting any IPv6 address and parsing it back yields the address; from_string accepts only RFC 4291 text.", "quantifier": "all 2^128 addresses, every string", "why_tests_cant": "2^128 addresses", "anchors": ["fly/net/ipv6_address.hpp:from_string,Formatter"]}
{"id": "C28", "title": "Endpoint text round trip and ordering", "statement": "Formatting an endpoint and parsing it back yields the endpoint; the ordering of endpoints is a strict total order.", "quantifier": "every endpoint", "why_tests_cant": "pairs of 2^144 values", "anchors": ["fly/net/endpoint.hpp"]}
{"id": "C29", "title": "JSON string escaping round trip", "statement": "For every valid Unicode string value a Json string may hold, serialize() produces a quoted ASCII string whose parse is the same value; construction rejects unescaped control characters and quotes.", "quantifier": "every string", "why_tests_cant": "unbounded strings", "anchors": ["fly/types/json/json.cpp:validate_string,read_escaped_character,write_escaped_character"]}
{"id": "C30", "title": "JSON serialize/parse round trip", "statement": "Parsing serialize(j) succeeds with the strict parser and yields a value equal to j, for every Json object/array tree without floating-point members, of any depth and size.", "quantifier": "every JSON tree", "why_tests_cant": "unbounded nesting", "anchors": ["fly/types/json/json.cpp:serialize", "fly/parser/json_parser.cpp"]}
{"id": "C31", "title": "JSON parser strictness and features", "statement": "The parser terminates on every input; in strict mode it accepts no comments, trailing commas or non-container documents; enabling a feature never changes the result of a document already accepted.", "quantifier": "every byte string, every feature set", "why_tests_cant": "all inputs", "anchors": ["fly/parser/json_parser.cpp"]}
{"id": "C32", "title": "JSON equality and ordering", "statement": "operator== is an equivalence and operator< a strict weak order on Json values consistent with ==; !=, <=, > and >= are what these two make of them.", "quantifier": "all pairs and triples of values", "why_tests_cant": "all triples", "anchors": ["fly/types/json/json.cpp:operator==,operator!=,operator<,operator<=,operator>,operator>="]}
{"id": "C33", "title": "INI parsing preserves values", "statement": "For every set of sections and name=value pairs rendered in INI form, parsing yields exactly those sections, names and values; text after the first = is the value.", "quantifier": "every INI document of the stated form", "why_tests_cant": "unbounded documents", "anchors": ["fly/parser/ini_parser.cpp"]}
{"id": "C34", "title": "Concurrent queue/stack linearizability", "statement": "Under every interleaving of push, pop, timed pop, empty and size, each popped item was pushed exactly once before, nothing is lost or duplicated, a queue pops in push order and a stack in reverse.", "quantifier": "every schedule of any number of threads", "why_tests_cant": "all interleavings", "anchors": ["fly/types/concurrency/detail/concurrent_container.hpp", "fly/types/concurrency/concurrent_queue.hpp", "fly/types/concurrency/concurrent_stack.hpp"]}
{"id": "C35", "title": "No lost wake-ups", "statement": "If the container is non-empty and a consumer is blocked in pop(), some consumer has been or will be woken: no reachable state has an item, a waiting consumer and no pending notification or running consumer.", "quantifier": "every schedule including spurious wake-ups and timeouts", "why_tests_cant": "all interleavings", "anchors": ["fly/types/concurrency/detail/concurrent_container.hpp:push,pop"]}
{"id": "C36", "title": "Sequenced task runner order", "statement": "Tasks posted to a SequencedTaskRunner run one at a time, in posting order, each exactly once while the task manager lives.", "quantifier": "every schedule of posting and worker threads", "why_tests_cant": "all interleavings", "anchors": ["fly/task/task_runner.cpp:SequencedTaskRunner::maybe_post_task", "fly/task/task_manager.cpp"]}
{"id": "C37", "title": "Parallel and delayed tasks", "statement": "Every task posted to the manager is executed at most once, a delayed task never before its delay has elapsed, and none after stop() returned or its runner was destroyed; a runner is not destroyed while one of its tasks is being executed.", "quantifier": "every schedule", "why_tests_cant": "all interleavings and clocks", "anchors": ["fly/task/task_manager.cpp"]}
{"id": "C38", "title": "Socket service notifications", "statement": "Each notification registered with the socket service is invoked at most once, only when its socket is ready, never after the removal of its socket has been processed, and while any request is pending a poll is scheduled.", "quantifier": "every sequence of registrations, removals and readiness results", "why_tests_cant": "all histories", "anchors": ["fly/net/socket/socket_service.cpp"]}
{"id": "C39", "title": "Byte order mark handling", "statement": "parse_file selects the encoding by BOM (UTF-32LE before UTF-16LE), defaults to UTF-8, and transcodes UTF-16/32 content losslessly to UTF-8.", "quantifier": "every file content", "why_tests_cant": "all contents", "anchors": ["fly/parser/parser.cpp", "fly/parser/parser.hpp:ensure_utf8"]}
{"id": "C40", "title": "Format string parsing", "statement": "Literal text with {{ and }} is reproduced with single braces, replacement fields are substituted left to right (or by explicit position), unbalanced braces are compile-time errors.", "quantifier": "every format string", "why_tests_cant": "unbounded strings", "anchors": ["fly/types/string/detail/format_string.hpp", "fly/types/string/format.hpp"]}
{"id": "C41", "title": "Integer formatting", "statement": "Formatting an integer in binary, octal, decimal or hexadecimal gives its positional representation, and parsing it back with convert yields the integer; padding produces exactly max(width,length) characters.", "quantifier": "every 64-bit integer, base, width", "why_tests_cant": "2^64 values", "anchors": ["fly/types/string/formatters.hpp", "fly/types/string/detail/converter.hpp"]}
{"id": "C42", "title": "JSON hashing", "statement": "Json values that compare equal with == have equal std::hash values.", "quantifier": "all pairs of values", "why_tests_cant": "all pairs of unbounded trees", "anchors": ["fly/types/json/json.hpp:std::hash<fly::Json>"]}
{"id": "C43", "title": "Sending on a socket", "statement": "send and send_async report exactly the number of bytes the operating system took from the message, which are its first bytes, once; send_async reports less than the whole message only when the socket was closed; sends that do not overlap put their messages on the wire one after the other in call order; a UDP message is cut into datagrams of packet_size bytes, the last one shorter; an asynchronous send is never forgotten while the socket and service exist.", "quantifier": "every history of calls on one socket, every way the operating system accepts, splits or refuses the data", "why_tests_cant": "all interleavings of calls and partial writes", "anchors": ["fly/net/socket/tcp_socket.cpp:send,send_async,ready_to_send", "fly/net/socket/udp_socket.cpp:send,send_async,ready_to_send", "fly/net/socket/detail/nix/socket_operations.cpp:send,send_to"]}
{"id": "C44", "title": "Receiving on a socket", "statement": "A TCP socket hands its user exactly the bytes that have arrived, in order, none twice and none left out; a UDP socket the datagrams in order, each once, cut at packet_size; each receive completes at most once, with an empty result exactly when the socket was closed; with non-overlapping complete sends the receiver's user gets a prefix of the sender's messages.", "quantifier": "every history, every split of the stream by the operating system", "why_tests_cant": "all partial reads", "anchors": ["fly/net/socket/tcp_socket.cpp:receive,receive_async,ready_to_receive", "fly/net/socket/udp_socket.cpp:receive,receive_async,ready_to_receive", "fly/net/socket/detail/nix/socket_operations.cpp:recv,recv_from"]}
{"id": "C45", "title": "Connecting and closing a socket", "statement": "The callback of connect_async is invoked at most once, only after Connecting was returned, with Connected on an open socket or Disconnected on a closed one; a socket is closed at most once and nothing is sent or delivered afterwards; no call leads to undefined behaviour.", "quantifier": "every history of calls on one socket", "why_tests_cant": "all histories", "anchors": ["fly/net/socket/tcp_socket.cpp:connect,connect_async,finish_connect,ready_to_connect", "fly/net/socket/detail/base_socket.cpp:close,is_valid"]}
{"id": "C46", "title": "Log files hold every record", "statement": "At every moment (so also when the process is killed) and as long as no file operation fails, the records of the logged calls are distributed in call order over the files 1, 2, ..., each record wholly in one file and numbered consecutively; each file, plain or compressed, holds exactly its records, up to the unwritten end of the last one; a file is closed exactly when it exceeds the size limit; every accepted call is eventually in a file; text free of the two separator characters can be read back field by field.", "quantifier": "every sequence of log calls, every split of the writes, every crash point, every configuration that compresses with chunk size >= 1 KiB, every tie-breaking in the compressor", "why_tests_cant": "all crash points and histories; unbounded logs", "anchors": ["fly/logger/logger.cpp:log", "fly/logger/detail/file_sink.cpp:stream,create_log_file", "fly/logger/log.cpp:operator<<"]}
{"id": "C47", "title": "Log records survive failures", "statement": "Whatever file operations fail, no record that was completely written is lost, and a logger that goes on logging has written every record.", "quantifier": "every history with failing writes, failing compression, failing creation of files, at any point", "why_tests_cant": "all failure points", "anchors": ["fly/logger/detail/file_sink.cpp:stream,create_log_file", "fly/logger/logger.cpp:log"]}
{"id": "C48", "title": "Synchronous loggers rotate", "statement": "A synchronous file logger goes on logging when its file is full, whether or not it is the default logger and whether or not it compresses its files; the full file is kept, plain or compressed.", "quantifier": "every state, configuration and call", "why_tests_cant": "needs a full log file and the compressor's own log call; all sizes and contents", "anchors": ["fly/logger/logger.cpp:log,set_default_logger", "fly/logger/detail/file_sink.cpp:create_log_file", "fly/coders/coder.cpp:encode_file"]}
{"id": "C49", "title": "Logger registry", "statement": "Logger::get(name) returns the logger created under that name exactly while it exists; creating a logger under a name in use fails and changes nothing; a name can be used again once its logger is gone.", "quantifier": "every history of creating, looking up and dropping loggers", "why_tests_cant": "all histories", "anchors": ["fly/logger/detail/registry.cpp:register_logger,unregister_logger,get_logger", "fly/logger/logger.cpp:create_logger,~Logger,get"]}
{"id": "C50", "title": "Path monitor", "statement": "While a callback registered with add_path or add_file is not removed, every change made in its directory (creation, removal, move, modification of an entry) leads, once and in order, to a call of the callback for that file or, if there is none, of the one for the directory, with the right path and kind (the operating system may merge equal consecutive changes); no callback is called after its removal; callbacks may use the monitor.", "quantifier": "every interleaving of add, remove, change and polling by any number of threads, every split of the event stream into reads", "why_tests_cant": "all interleavings; races between remove_file and add_file", "anchors": ["fly/path/path_monitor.cpp", "fly/path/nix/path_monitor_impl.cpp:poll,read_events,handle_event,convert_to_event"]}
{"id": "C51", "title": "Json objects are finite maps", "statement": "With keys given as any text, at, [], count, contains, find, insert, insert_or_assign, emplace, erase, merge and the constructors treat an object as a finite map from the key the text names (escape sequences replaced) to a value: what is bound, replaced, removed or moved is exactly that key; an invalid key throws.", "quantifier": "every object, key text and value", "why_tests_cant": "unbounded objects; keys with escape sequences, invalid UTF-8, duplicates", "anchors": ["fly/types/json/json.hpp:at,operator[],insert,insert_or_assign,emplace,erase,count,find,contains,swap", "fly/types/json/json.cpp:insert,erase,merge,Json(initializer_list)"]}
{"id": "C52", "title": "Json arrays are sequences", "statement": "at, [], front, back, insert, push_back, pop_back, erase and resize treat an array as a sequence: the values are where the operation puts them, in order, all others keep their order; an operation that throws leaves the value as it was; an operation on a value of the wrong type throws; nothing is undefined with valid arguments.", "quantifier": "every array, position, range, index and value", "why_tests_cant": "unbounded arrays; all 64-bit indices", "anchors": ["fly/types/json/json.cpp:at,operator[],front,back,begin,end,resize,clear,insert,push_back,pop_back,erase", "fly/types/json/json.hpp:get_or_promote,array_inserter"]}
{"id": "C53", "title": "Json iterators", "statement": "The loop from begin() to end() visits every element of a container exactly once, in order, and terminates, and the loop from rbegin() to rend() visits them backwards; iterator arithmetic, comparison and differences agree with positions; dereferencing or passing the end, missing instances, iterators of different instances, and offsets on objects throw.", "quantifier": "every container, iterator and offset", "why_tests_cant": "unbounded containers; all positions and offsets", "anchors": ["fly/types/json/detail/json_iterator.hpp", "fly/types/json/detail/json_reverse_iterator.hpp", "fly/types/json/json.cpp:begin,end"]}
{"id": "C54", "title": "Json references and validity", "statement": "A call on an instance or on an element reached through it changes that instance only: instances neither containing nor contained in it are unaffected, and those that contain it keep their other elements, keys and order. After any sequence of calls every value is valid and can be serialized.", "quantifier": "every nesting of values, every sequence of calls with any arguments", "why_tests_cant": "unbounded sequences and nesting", "anchors": ["fly/types/json/json.cpp", "fly/types/json/json.hpp"]}
{"id": "C55", "title": "Json conversions", "statement": "Converting a Json value to an integer type yields the number exactly when the value is that number (or a number text of it) and it fits the type, and throws otherwise; integers, also as texts, and sequences of convertible values survive the way into a Json value and back; converting to bool never throws and is true exactly for non-empty, non-zero values.", "quantifier": "every Json value and every integer type", "why_tests_cant": "2^64 numbers, unbounded texts and arrays", "anchors": ["fly/types/json/json.hpp:operator T,operator bool,operator std::string", "fly/types/json/json.cpp"]}
{"id": "C56", "title": "Configurations hold what the file says", "statement": "Once the changes of the file are handled, every config in use holds its section of the file, and the defaults when there is none; every value seen comes from a file that was parsed, also while an update is going on; create_config returns the one config of its identifier (nullptr if that has another type), prune the number of configs in use; get_value the value bound to the name, or the default if there is none or it cannot be converted.", "quantifier": "every interleaving of file changes, reports, updates, create_config, prune and drops by any number of threads", "why_tests_cant": "all interleavings; files read while they are written", "anchors": ["fly/config/config_manager.hpp:create_config", "fly/config/config_manager.cpp:start,prune,update_config", "fly/config/config.hpp:get_value", "fly/config/config.cpp:update"]}
{"id": "C57", "title": "Task replies and owners", "statement": "A task posted with a reply runs once and then, once, its reply, with the value the task returned, on the same runner; a task or reply with a weak owner runs exactly if the owner still exists when it is its turn, and the owner exists until it has returned; if the task is skipped so is the reply; on a sequenced runner replies and delayed tasks take their turn in the order in which they become ready; the task may be any callable.", "quantifier": "every interleaving of posting, running, returning and of references to owners, on sequenced and parallel runners", "why_tests_cant": "all interleavings; object lifetimes", "anchors": ["fly/task/task_runner.hpp:post_task,post_task_with_reply,post_task_with_delay,post_task_with_delay_and_reply,wrap_task,TaskHolder"]}
{"id": "C58", "title": "Sockets of the operating system have one owner", "statement": "A socket object is open exactly while it holds a socket of the operating system, its handle is that socket's descriptor, and no other object has it; it closes that socket once, on close(), on failure or in its destructor, and never another one's descriptor, so that when all objects are gone all their sockets are closed; moving hands everything over and leaves a closed object; io_mode() is the mode of the socket, is_listening() says whether it listens, socket_id() is unique; accept gives a connected socket with the listener's mode, or closes the listener; the callback of accept_async is invoked once (unless the listener or the service goes), with nothing only when the listener was closed before.", "quantifier": "every history of construction, moves, assignments, calls and destruction of any number of socket objects, descriptors used again, other parts of the program, failing system calls", "why_tests_cant": "all histories; object lifetimes", "anchors": ["fly/net/socket/detail/base_socket.cpp:BaseSocket,~BaseSocket,operator=,close,set_io_mode", "fly/net/socket/listen_socket.cpp:listen,accept,accept_async,ready_to_accept", "fly/net/socket/detail/nix/socket_operations.cpp:close,set_io_mode,accept"]}
{"id": "C59", "title": "System monitor", "statement": "create returns a monitor exactly if /proc/stat lists a CPU and the task runner takes the first poll; the monitor then polls for as long as the task runner takes its polls; the CPU count is that of the last readable /proc/stat, the system CPU usage the share of the time between the last two readable polls in which the CPUs were busy, in percent between 0 and 100, the process CPU usage the CPU time of the process in relation to the time of all CPUs, the memory values those of the last sysinfo and the last readable /proc/self/status, in bytes; a poll that cannot read a value leaves it as it was.", "quantifier": "every sequence of polls and of answers of the operating system", "why_tests_cant": "all contents of the files, all counters, rounding of doubles", "anchors": ["fly/system/system_monitor.cpp:create,start,poll_system_later", "fly/system/nix/system_monitor_impl.cpp"]}
{"id": "C60", "title": "Floating-point formatting", "statement": "Formatting a floating-point value with f, e, g or a (and capitals) gives the text printf gives for it and the precision (the nearest decimal, ties to even), with the sign the sign option asks for, in the requested case, padded with the fill character or zeros to exactly max(width, length) characters at the requested alignment; infinity and NaN are inf and nan.", "quantifier": "every finite, infinite and not-a-number value, precision, width and combination of flags", "why_tests_cant": "2^64 values, unbounded precisions and widths", "anchors": ["fly/types/string/detail/formatters.hpp:Formatter<T>::format", "fly/types/string/detail/formatters.hpp:Formatter<T>::convert_value", "fly/types/string/detail/formatters.hpp:Formatter<T>::append_prefix"]}
{"id": "C61", "title": "Joining strings and random strings", "statement": "join(separator, values...) is the plain text of each value (strings as they are, integers in decimal, booleans as true or false, pointers in hexadecimal, characters as themselves) with the separator between each two, so splitting the result at the separator gives the values back; generate_random_string(n) has exactly n characters, all digits or ASCII letters, and every such string can be drawn.", "quantifier": "every separator, number and kind of values, every length and every sequence of random numbers", "why_tests_cant": "unbounded lists of values and lengths", "anchors": ["fly/types/string/string.hpp:BasicString::join", "fly/types/string/string.hpp:BasicString::join_internal", "fly/types/string/string.hpp:BasicString::generate_random_string"]}
{"id": "C62", "title": "Coding strings and files", "statement": "encode_string, decode_string, encode_file and decode_file return true exactly if the whole input was coded and the result holds it; then the result string or file is what the coder makes of the input, and decoding it gives the input back; if they return false the result string or file is as it was before; no other file is changed.", "quantifier": "every coder, input, file system, and every failure to open, read or write", "why_tests_cant": "needs failures of the operating system at every point, and files that are the same under several names", "anchors": ["fly/coders/coder.cpp:Encoder::encode_string", "fly/coders/coder.cpp:Encoder::encode_file", "fly/coders/coder.cpp:Decoder::decode_string", "fly/coders/coder.cpp:Decoder::decode_file"]}
{"id": "C63", "title": "Styled output", "statement": "Streaming a Styler to std::cout or std::cerr makes an ANSI terminal apply the styles, colors and cursor movements it was given (the last color of a plane counts, a movement of 0 is 1) to what is streamed until the Styler is destroyed, and then what was before; on any other stream nothing is written; the other stream is untouched. The console logger writes each record as one line, to standard error for warnings and errors, else to standard output, its header in the color of the level, and leaves the terminal as it was.", "quantifier": "every list of modifiers, every color and distance, every text, every state of the terminal and the stream", "why_tests_cant": "all lists of modifiers, terminals and stream flags", "anchors": ["fly/logger/styler.hpp", "fly/logger/styler.cpp", "fly/logger/detail/nix/styler_proxy_impl.cpp", "fly/logger/detail/console_sink.cpp:stream"]}
{"id": "C64", "title": "Signal handlers", "statement": "After set_signal_handler(f) each of the signals SIGINT, SIGTERM, SIGILL, SIGFPE, SIGABRT, SIGSEGV, SIGSYS and SIGBUS invokes f with its number, after set_signal_handler(nullptr) it has its default action, and all other signals keep theirs; a signal that arrives during the call invokes the old or the new handler or has the default action; a handler is not destroyed while it runs.", "quantifier": "every sequence of calls, every arrival of any signal between any two steps", "why_tests_cant": "signals arrive between any two instructions", "anchors": ["fly/system/system.cpp:set_signal_handler,handle_signal"]}
{"id": "C65", "title": "Error strings and local time", "statement": "get_error_string(code) is the code in parentheses, a space and the system's message for it, so that different codes give different strings; local_time() is never empty when the system knows the time, has the form month-day-year hour:minute:second, and differs for different times.", "quantifier": "every code and message, every broken-down time", "why_tests_cant": "2^32 codes, all times", "anchors": ["fly/system/system.cpp:get_error_string", "fly/system/nix/system_impl.cpp:local_time,get_error_code"]}
{"id": "C66", "title": "Parser warnings", "statement": "Parsing a text logs a warning for every text it refuses, at the line and column of the symbol it names, and what it says is so; a text that is accepted logs none; at most one warning is logged; an INI warning names the line that is faulty, the first one.", "quantifier": "every text and every set of features", "why_tests_cant": "all texts, all positions of the fault", "anchors": ["fly/parser/json_parser.cpp", "fly/parser/ini_parser.cpp", "fly/parser/parser.hpp:get,peek,discard", "fly/parser/parser.cpp:parse_stream,line,column"]}
{"id": "C67", "title": "Formatting strings of another character type", "statement": "A replacement field whose argument is a string of a character type other than the format string's shows that string transcoded, character for character; a string that is not well-formed text is dropped and leaves only its padding. The precision limits the text shown and the field is at least as wide as the width asks, padded only where the text is shorter.", "quantifier": "every source and target encoding (UTF-8, UTF-16, UTF-32), string of units, fill, alignment, width and precision", "why_tests_cant": "the interplay of precision, width and character boundaries ranges over all strings and all field options", "anchors": ["fly/types/string/formatters.hpp", "Formatter<String>::format, append_string"]}
{"id": "C68", "title": "JSON strings and keys in other encodings", "statement": "Constructing a Json string from a string of any supported character type, and using one as a key, is the same as with the UTF-8 string of the same text; ill-formed strings are refused. Reading a Json string out as a string of any character type gives the same text and is always defined; reading an object out as a map with keys of any character type keeps every entry under the same key, and constructing an object from such a map keeps the first of the entries whose keys denote the same. Strings of any character type convert to integers exactly as strings of char do.", "quantifier": "every string, map of strings, source and target encoding; every Json value and member call before the conversion", "why_tests_cant": "all texts times all pairs of encodings; collisions of keys after transcoding and unescaping; states reached by earlier member calls", "anchors": ["fly/types/json/json.hpp", "Json::Json(T), operator T, convert_to_string", "fly/types/string/string.hpp", "BasicString::convert"]}
{"id": "C69", "title": "Floating-point formatting through a stream", "statement": "In builds whose standard library has no floating-point std::to_chars, formatting a floating-point value gives the same text as in the others: what printf gives for the value, presentation and precision, with the sign the sign option asks for, in the requested case, padded to exactly the width; and nothing a thread has formatted before changes what it formats later.", "quantifier": "every value, presentation, option, width and precision, every history of calls of a thread", "why_tests_cant": "all combinations of options and all histories, in a configuration the tests are not built in", "anchors": ["fly/types/string/formatters.hpp:Formatter::format", "fly/types/string/detail/stream_util.hpp:ScopedStreamModifiers,PositivePaddingFacet"]}
{"id": "C70", "title": "Text is converted to the nearest floating-point number", "statement": "Converting text to float, double or long double succeeds exactly for the texts of numbers (decimal digits with an optional point and exponent, an optional sign, infinity and not-a-number in any case) and gives the floating-point number nearest to the number written, ties to even; a text that is followed by anything else, or whose number is too large for the type, is refused. A double formatted with 17 significant digits or more is read back as the same double. All builds of the library accept the same texts.", "quantifier": "every text, every binary floating-point format, every value and precision, both implementations the library selects from", "why_tests_cant": "all texts and all 2^64 doubles; one of the two implementations is not in the build the tests run in", "anchors": ["fly/types/string/detail/converter.hpp:Converter::convert", "fly/types/string/string.hpp:convert", "fly/types/string/formatters.hpp:Formatter::format"]}
{"id": "C71", "title": "Floating-point numbers in JSON texts", "statement": "The JSON parser takes a text for a floating-point number exactly if it is a number of RFC 8259 with a fraction or an exponent that the type long double can hold, and reads the nearest long double, in all builds. A finite number is serialized as a number of RFC 8259; serializing a document, parsing the text and serializing again gives the same text, and what was read is the same tree with numbers that differ from the original ones by no more than the six digits shown; everything serialized can be parsed.", "quantifier": "every format of long double, both conversion functions, every text, every document", "why_tests_cant": "all floating-point numbers, all documents, and a build the tests are not run in", "anchors": ["fly/types/json/json.cpp:serialize", "fly/parser/json_parser.cpp:parse_value,validate_number", "fly/types/string/detail/converter.hpp:Converter<long double>", "fly/types/string/detail/formatters.hpp:Formatter<T>::format"]}
{"id": "C72", "title": "Logging from several threads", "statement": "Any number of threads may call one logger at the same time: its sink is given the records one at a time, numbered 0, 1, 2, ... without gaps, those of one thread in the order of its calls, every accepted call exactly once; a logger whose sink refused a record gives it no other. This holds with a task runner and without one, and until the last accepted record is written, even if the logger is released before.", "quantifier": "every interleaving of the atomic steps of any number of threads and of the task runner, every answer of the sink, and every moment at which the logger is released or the task manager is stopped", "why_tests_cant": "races between callers, and between a caller and the release of the logger, depend on the schedule; tests run few", "anchors": ["fly/logger/logger.cpp:Logger::log", "fly/logger/logger.cpp:Logger::log_to_sink", "fly/logger/logger.hpp:Logger", "fly/task/task_runner.hpp:wrap_task"]}
{"id": "C73", "title": "JSON arrays and standard containers", "statement": "Converting a JSON array to a container puts the converted elements into it: in their order for sequences (forward lists too), in ascending order for sets and multisets (equal elements of a multiset in the order of the array, of a set only the first), each once or as often as it occurs for the unordered ones; the first element that cannot be converted makes the conversion fail with its exception; everything but an array is refused. Constructing a Json value from a container gives the array of its elements in iteration order, and converting it back gives the container, for elements that survive their own conversion.", "quantifier": "every array and container of any length, every element type with its conversions, and every order or equality the container library allows", "why_tests_cant": "unbounded arrays and containers, all orders; element types the tests do not use", "anchors": ["fly/types/json/detail/array_util.hpp:json_array_size,json_array_append", "fly/types/json/json.hpp:operator T,Json(T)"]}
{"id": "C74", "title": "Failed assertions", "statement": "FLY_ASSERT evaluates its expression once; if it is true nothing else happens, if it is false the message (shown as it was given), and each captured value, formatted and under its name, are shown on standard error with the expression, file, line, function and call stack, headings highlighted, and then the program is aborted; the terminal is left as it was and nothing is written elsewhere. In a build with NDEBUG nothing is evaluated.", "quantifier": "every expression, message, number, kind and order of captured values, and every call stack", "why_tests_cant": "all texts and values; the styles on a terminal", "anchors": ["fly/assert/assert.hpp:FLY_ASSERT", "fly/assert/detail/assert_enabled.hpp:FLY_ASSERT_IMPL,assertion_failed,log_assertion", "fly/assert/detail/assert_enabled.cpp:log_assertion", "fly/assert/detail/assert_disabled.hpp"]}
{"id": "C75", "title": "Components obey their configuration", "statement": "Each component's setting (Huffman chunk size and code length, log file and message size, socket wait time, packet size, poll intervals, log compression) is the value the configuration file gives under the documented section and name, if it is a value of the documented type, and the documented default if the file gives none or something else; once a change of the file is handled the settings are the new file's. Whatever encoder settings are configured, what an encoder constructed with them makes of a text is decompressed to it, or the compression fails and says so; a file can switch each setting on or off.", "quantifier": "every configuration file and value of a setting (numbers, texts, booleans, anything else), every history of the configuration manager, every input of the encoder", "why_tests_cant": "all values of all settings, all histories; settings at the edge of their types", "anchors": ["fly/coders/coder_config.cpp", "fly/logger/logger_config.cpp", "fly/net/network_config.cpp", "fly/path/path_config.cpp", "fly/system/system_config.cpp", "fly/config/config.hpp:get_value", "fly/coders/huffman/huffman_encoder.cpp:HuffmanEncoder,encode_binary"]}
{"id": "C76", "title": "Log points", "statement": "A log macro hands the default logger - the one set last, at first the console logger - and no other logger exactly one record: the severity the macro is named after, the place of the macro, the text of the format string with its arguments, cut to the configured size, numbered one above the record before; nothing once the logger has failed. LOGS does the same and adds the number and the text of the last system error. A text that is no format string for the arguments is logged as one that says so. The functions debug, info, warn and error do the same for their logger, with or without a place.", "quantifier": "every format string and arguments, state of every logger, order of default loggers set, errno and text of an error, answer of the sink", "why_tests_cant": "all format strings and arguments (the interplay of a format string with the text LOGS adds to it), all states", "anchors": ["fly/logger/logger.hpp:LOGD,LOGI,LOGW,LOGS,LOGE,debug,info,warn,error", "fly/logger/logger.cpp:log,log_to_sink,set_default_logger", "fly/logger/log.cpp:Log", "fly/logger/detail/registry.cpp:set_default_logger,get_default_logger"]}
{"id": "C77", "title": "Sockets pass addresses to and from the operating system unchanged", "statement": "A socket that is bound to, connected to or sends to an endpoint gives the operating system exactly that address and port - the octets or bytes of the text it was made of, the port in network order - on hosts of either byte order; an endpoint the library reports (the local and remote endpoint, the client accepted, the sender of a datagram) is the one the operating system gave, and replying to it goes where it came from; on failure the caller's endpoint is unchanged. A host name is the first address the resolver gives for that name, and nothing is called if it gives none. Messages are sent in packets of at most the configured size, every one to the given endpoint, all of the message unless a call fails.", "quantifier": "every address, port and text of one, both byte orders, every answer of the operating system and the resolver", "why_tests_cant": "all addresses and ports, hosts of the other byte order, and every failure", "anchors": ["fly/net/socket/detail/nix/socket_operations.cpp: endpoint_to_address, address_to_endpoint, bind, connect, send_to, recv_from, accept, local_endpoint, remote_endpoint, hostname_to_address", "fly/net/socket/detail/base_socket.cpp: bind, hostname_to_address", "fly/net/socket/tcp_socket.cpp: connect", "fly/net/socket/udp_socket.cpp: send"]}
{"id": "C78", "title": "JSON exceptions explain themselves", "statement": "Whenever an operation of a Json instance or iterator throws an exception of the library, its what() starts with the name of the class thrown, says what was wrong - the index, the key, the offset or the character that is not allowed, as it was given - and ends with the serialized text of the instance it is about in parentheses; that is the instance the operation was called on (both instances, if iterators of two are compared), and the text of an array or object can be parsed back to it. Making the message fails for no instance of valid text.", "quantifier": "every operation, instance, key, index, offset and iterator; every text that is no JSON string", "why_tests_cant": "all instances, all texts and positions of what is wrong in them, all numbers", "anchors": ["fly/types/json/json_exception.cpp", "fly/types/json/json.cpp:at,erase,insert,resize,validate_string,read_escaped_character", "fly/types/json/json.hpp:at,convert_to_string,get", "fly/types/json/detail/json_iterator.hpp:validate_iterator,validate_offset,validate_dereference"]}
