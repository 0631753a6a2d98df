{"id": "C01", "title": "Big-endian storage round trip", "statement": "Storing any 2, 4 or 8 byte value in a BigEndian and reading it back gives the same value; the stored bytes are the base-256 digits of the value, most significant first, and reading any byte array gives the base-256 number it spells.", "quantifier": "every 16, 32 and 64 bit pattern (signed and unsigned) and every byte array of that size", "why_tests_cant": "2^64 bit patterns cannot be enumerated; the tests try four literals.", "anchors": ["include/fastcgi++/endian.hpp: BigEndian_base::from, BigEndian_base::to, BigEndian::set, BigEndian::read"]}
{"id": "C02", "title": "FastCGI name-value pairs decode exactly", "statement": "If a buffer starts with the FastCGI encoding (1 or 4 byte lengths) of a name and a value, followed by anything, then parsing the pair succeeds and delimits exactly that name and that value.", "quantifier": "every name and value of length below 2^31, either length form, every trailing byte string", "why_tests_cant": "Names, values and trailing data are unbounded; tests draw a few random sizes.", "anchors": ["src/protocol.cpp: processParamHeader"]}
{"id": "C03", "title": "FastCGI name-value parsing stays inside the record and refuses truncated pairs", "statement": "Parsing a name-value pair never reads a byte at or after the given end, terminates, succeeds only when the whole pair lies inside the range, and fails on every proper prefix of an encoded pair.", "quantifier": "every byte buffer and every claimed end inside it", "why_tests_cant": "Memory safety is about all hostile inputs, not sampled ones.", "anchors": ["src/protocol.cpp: processParamHeader"]}
{"id": "C04", "title": "Record size is the least multiple of 8 that holds header and content", "statement": "For every requested content length n the computed record size is the smallest multiple of 8 not below 8 + min(n, 65535); the implied padding is below 8 and fits its one byte field.", "quantifier": "every content length", "why_tests_cant": "Ranges over all size_t values including the clamp boundary.", "anchors": ["src/protocol.cpp: getRecordSize", "include/fastcgi++/protocol.hpp: chunkSize"]}
{"id": "C05", "title": "Byte output stream reaches the web server intact", "statement": "For every history of writes, single character puts, encoding changes, raw dumps and flushes on a char output stream, the contents of the emitted records, concatenated in order and followed by what is still buffered, are exactly the encoded characters in program order; after a flush nothing is left buffered.", "quantifier": "every finite history of stream operations with arbitrary data of arbitrary length", "why_tests_cant": "The interesting cases depend on how data aligns with the 8192 byte buffer and the 65535 byte record limit over unbounded histories.", "anchors": ["src/webstreambuf.cpp: WebStreambuf::xsputn, overflow", "src/fcgistreambuf.cpp: FcgiStreambuf<char>::emptyBuffer, dump"]}
{"id": "C06", "title": "Every stream record put on the wire is well formed", "statement": "Each record a request's output or error stream emits has version 1, the stream's record type, the request's id, a declared content length between 1 and 65535 equal to the number of content bytes carried, and a declared padding that makes the total length exactly the number of bytes sent and a multiple of 8.", "quantifier": "every history of stream operations, both char and wchar_t streams", "why_tests_cant": "Record boundaries depend on unbounded operation histories.", "anchors": ["src/fcgistreambuf.cpp: FcgiStreambuf::emptyBuffer, dump", "src/protocol.cpp: getRecordSize"]}
{"id": "C07", "title": "Wide output is exactly the UTF-8 of what was written", "statement": "For a wchar_t output stream whose characters are all valid code points, the emitted record contents are the UTF-8 encoding of the (HTML/URL encoded) characters in program order, no conversion writes past the record buffer, and a standard UTF-8 decoder recovers the text; an unencodable character discards only the characters still buffered with it.", "quantifier": "every history of writes and flushes over all code points", "why_tests_cant": "Multi-byte characters against buffer boundaries over unbounded histories.", "anchors": ["src/fcgistreambuf.cpp: FcgiStreambuf<wchar_t>::emptyBuffer", "src/webstreambuf.cpp: WebStreambuf::xsputn"]}
{"id": "C08", "title": "HTML and URL escaping is exact and leaves nothing dangerous", "statement": "Block writes under HTML encoding replace exactly the five characters & < > \" ' by their entities and leave every other character alone, so no raw markup character survives and the original is recoverable; block writes under URL encoding leave no byte outside the unreserved set of the table unescaped. Single character puts bypass the encoding.", "quantifier": "every character string and every position relative to the internal buffer", "why_tests_cant": "Injection safety must hold for all strings and buffer alignments.", "anchors": ["src/webstreambuf.cpp: htmlCharacters, urlCharacters, WebStreambuf::xsputn, overflow"]}
{"id": "C09", "title": "URL encoding followed by percent decoding is the identity", "statement": "Writing a byte string under URL encoding and percent-decoding the result gives back the byte string.", "quantifier": "every byte string", "why_tests_cant": "Unbounded strings over all 256 byte values.", "anchors": ["src/webstreambuf.cpp: urlCharacters", "src/http.cpp: percentEscapedToRealBytes"]}
{"id": "C10", "title": "Percent decoding is total and never outgrows its input", "statement": "Percent decoding of any byte range reads only that range, writes at most as many bytes as it reads (never past a destination of the input's size), turns '+' into a space, %XY into one byte, drops an incomplete trailing escape and copies all else.", "quantifier": "every byte string including malformed escapes", "why_tests_cant": "All malformed inputs must be covered.", "anchors": ["src/http.cpp: percentEscapedToRealBytes"]}
{"id": "C11", "title": "URL-encoded forms and cookies decode to the pairs that were encoded", "statement": "Decoding the concatenation of url-encoded name=value fields joined by the separator ('&' for forms and queries, '; ' for cookies) yields exactly those pairs, in order and with duplicates kept; a field without '=' is merged into the name of the following field.", "quantifier": "every list of name/value byte strings, both separators", "why_tests_cant": "Lists and strings are unbounded.", "anchors": ["src/http.cpp: decodeUrlEncoded, Environment::parsePostsUrlEncoded"]}
{"id": "C12", "title": "Base64 round trip", "statement": "Encoding any byte string and decoding the text gives the byte string back; the text has 4*ceil(n/3) characters, is padded with '=' exactly as RFC 4648 says, and decoding never writes outside a destination of 3/4 of the text length.", "quantifier": "every byte string of every length", "why_tests_cant": "Unbounded length, three alignment classes times all contents.", "anchors": ["include/fastcgi++/http.hpp: base64Encode, base64Decode", "src/http.cpp: base64Characters"]}
{"id": "C13", "title": "Session id text form identifies the session", "statement": "Printing a session id and constructing a session id from the text gives an equal id; distinct ids print differently; a malformed or short text is not guaranteed to produce any particular id (its bytes stay indeterminate).", "quantifier": "every 15 byte session id and every text", "why_tests_cant": "2^120 ids.", "anchors": ["src/http.cpp: SessionId::SessionId", "include/fastcgi++/http.hpp: SessionId, operator<<"]}
{"id": "C14", "title": "Sessions live exactly keep-alive seconds after their last use", "statement": "Looking a session up returns the data it was generated with if and only if it was generated, never erased since, and was generated or last looked up no more than keep-alive seconds ago; a new session never replaces an existing one and gets an id not in use.", "quantifier": "every history of generate/get/erase calls, every clock reading sequence, every stream of random ids", "why_tests_cant": "Depends on arbitrary interleavings of accesses, expiry sweeps and clock values.", "anchors": ["include/fastcgi++/http.hpp: Sessions::generate, get, erase, cleanup, setExpiration"]}
{"id": "C15", "title": "Address text round trip", "statement": "Printing any IPv6 or IPv4-mapped address and parsing the text yields the same address, for every one of the 2^128 addresses.", "quantifier": "every 16 byte address", "why_tests_cant": "2^128 inputs, zero-run compression has many shapes.", "anchors": ["src/address.cpp: Address::assign, operator<<"]}
{"id": "C16", "title": "Address masking and ordering", "statement": "Masking keeps exactly the bits set in both operands and is associative, commutative and idempotent; address comparison is a strict total order compatible with equality; an address is false exactly when all bytes are zero.", "quantifier": "all pairs and triples of addresses", "why_tests_cant": "Algebraic laws over 2^128 values.", "anchors": ["src/address.cpp: operator&=, operator bool", "include/fastcgi++/address.hpp: operator==, operator<, operator&"]}
{"id": "C17", "title": "Incoming records are reassembled whatever the network does", "statement": "For every sequence of FastCGI records a peer sends and every way the network splits the bytes into reads (including empty reads), the records delivered so far are the first ones sent, each once, in order, with exact bytes, and while the connection is open they are all that were completely read; everything waiting is read. When the connection has been closed, all that was read and not delivered is less than a record or, from a peer that has closed its side, a single record that is a bare header. (Refuted beyond: that bare header is indeed lost, though it was read completely.)", "quantifier": "every record sequence, every segmentation, every number of read attempts", "why_tests_cant": "The number of segmentations is exponential in the stream length.", "anchors": ["src/transceiver.cpp: Transceiver::receive", "src/block.cpp: Block"]}
{"id": "C18", "title": "Connections do not contaminate each other's input", "statement": "Reading from one connection never changes what will be delivered for another connection, and when a read finds a connection closed its partial data is discarded and exactly one connection-closed notification is delivered, after all its records; there is never a second one. Sending, transmitting and polling change no connection's input. (Refuted beyond: when it is a write that finds the connection broken, no notification is delivered and the partial data stays.)", "quantifier": "every interleaving of reads on any number of connections", "why_tests_cant": "Interleavings are unbounded.", "anchors": ["src/transceiver.cpp: Transceiver::receive, cleanupSocket"]}
{"id": "C19", "title": "Outgoing records keep order and are never interleaved", "statement": "For every interleaving of send calls and partial or refused socket writes, the bytes written to each connection are a prefix of the concatenation of the records sent to it in send order, until that connection fails; when the queue drains everything has been written.", "quantifier": "every interleaving of sends from any thread with transmit steps and every pattern of partial writes", "why_tests_cant": "Concurrency schedule and kernel behaviour are adversarial.", "anchors": ["src/transceiver.cpp: Transceiver::transmit, send"]}
{"id": "C20", "title": "A connection is closed by this side only after its final record is completely written", "statement": "When a record marked as final is queued, the connection stays open until every byte of that record and all earlier records to it is accepted by the kernel, is then closed and its partial input discarded; records not marked final never close the connection.", "quantifier": "every interleaving of sends and every pattern of partial writes", "why_tests_cant": "Partial writes at any byte of any record.", "anchors": ["src/transceiver.cpp: Transceiver::transmit"]}
{"id": "C21", "title": "Wake-ups of the I/O thread are never lost and never pile up", "statement": "After any thread has called wake, the I/O thread cannot block in poll before it has consumed a wake-up issued at or after that call; at most one wake byte is ever pending so wake never blocks. Hence once send, terminate or stop has returned, the I/O thread does not sleep over a record to be sent, over the request to terminate, or over the request to stop when no connection is left.", "quantifier": "every interleaving of any number of waking threads with the polling thread", "why_tests_cant": "A lost wake-up needs a specific interleaving.", "anchors": ["src/sockets.cpp: SocketGroup::wake, SocketGroup::poll"]}
{"id": "C22", "title": "Request identifiers order correctly and a connection's requests form a contiguous range", "statement": "The request id comparison is a strict total order on (connection, id) pairs, the connection-only comparisons are consistent with it, and looking up by connection selects exactly the requests of that connection.", "quantifier": "all request ids, connections and sets of requests", "why_tests_cant": "Ordering laws quantify over all triples.", "anchors": ["include/fastcgi++/protocol.hpp: RequestId::Less", "src/manager.cpp: Manager_base::push"]}
{"id": "C23", "title": "A request ends exactly once and emits nothing afterwards", "statement": "Whatever records and messages a request receives and whatever the application does, at most one END_REQUEST is sent for it, it is sent exactly when the request is reported complete, it follows all output and error records of the request, carries the request's id, and asks for the connection to be closed exactly when the web server did not ask to keep it.", "quantifier": "every message sequence and every behaviour of the user callbacks", "why_tests_cant": "Message sequences are unbounded and adversarial.", "anchors": ["src/request.cpp: Request::handler, Request::complete", "include/fastcgi++/protocol.hpp: BeginRequest::kill"]}
{"id": "C24", "title": "POST data is bounded", "statement": "The amount of POST data held for a request never exceeds the announced content length, nor the configured maximum; an announced length above the maximum or more data than announced is answered with the too-large error and ends the request.", "quantifier": "every record sequence, every announced length, every maximum", "why_tests_cant": "Memory exhaustion safety is about all inputs.", "anchors": ["src/request.cpp: Request::handler, bigPostErrorHandler", "src/http.cpp: Environment::fillPostBuffer"]}
{"id": "C25", "title": "The request body the application sees is what the web server sent", "statement": "When the application's response code first runs for a well-formed request, the POST buffer handed to the body parser is the concatenation of all STDIN record contents in order, whatever the record split.", "quantifier": "every body and every split into STDIN records", "why_tests_cant": "All splits of all bodies.", "anchors": ["src/request.cpp: Request::handler", "src/http.cpp: Environment::fillPostBuffer"]}
{"id": "C26", "title": "Environment is what the PARAMS stream says when pairs do not straddle records", "statement": "If every PARAMS record holds whole name-value pairs, the environment equals the one obtained from the concatenated stream, whatever the split into records; a pair straddling two records is lost or misread.", "quantifier": "every list of parameters and every split into records at pair boundaries; a witness for the straddling case", "why_tests_cant": "All parameter lists and all splits.", "anchors": ["src/http.cpp: Environment::fill", "src/request.cpp: Request::handler"]}
{"id": "C27", "title": "Protocol violations end the request with an error", "statement": "A record out of protocol order, an unsupported role, or an unknown content type each ends the request with the documented status and without running the response code for that record; an abort ends it cleanly in every state.", "quantifier": "every request state and every record", "why_tests_cant": "All states times all records.", "anchors": ["src/request.cpp: Request::handler, errorHandler, unknownContentErrorHandler"]}
{"id": "C28", "title": "A request is never handled by two threads at once", "statement": "In every execution of any number of handler threads, at most one thread at a time runs a given request's handler.", "quantifier": "every number of threads and every interleaving of handler threads, message pushes and connection losses", "why_tests_cant": "Races need particular schedules.", "anchors": ["src/manager.cpp: Manager_base::handler, push"]}
{"id": "C29", "title": "No message to a live request is stranded", "statement": "In every reachable state, if a live request has an unprocessed message then a task for it is queued, or about to be queued, or a thread is handling it and will look again before releasing it.", "quantifier": "every number of threads and every interleaving", "why_tests_cant": "A stranded message is a lost wake-up race.", "anchors": ["src/manager.cpp: Manager_base::handler, push", "src/request.cpp: Request::handler"]}
{"id": "C30", "title": "Messages of one request are processed in arrival order, each once", "statement": "The messages a request's handler consumes are a prefix of those pushed to it, in push order, without loss or repetition, for as long as the request lives.", "quantifier": "every number of threads and every interleaving", "why_tests_cant": "Order under concurrency.", "anchors": ["src/manager.cpp: Manager_base::handler, push", "src/request.cpp: Request::handler"]}
{"id": "C31", "title": "Where a request object can be used after it is destroyed", "statement": "Whenever a thread accesses a request, the request has not been removed, but for one place: a thread done with a message unlocks the request's mutex first and its message lock second, and if it is there the connection may have been lost in between and the request destroyed. That does happen in some execution, so the claim that no thread ever accesses a removed request is false. A request is removed only because it was complete or its connection lost.", "quantifier": "every interleaving of handler threads and connection-loss notifications", "why_tests_cant": "Use-after-free needs a race.", "anchors": ["src/manager.cpp: Manager_base::handler, push"]}
{"id": "C32", "title": "Losing a connection affects only that connection", "statement": "A connection-closed notification removes only requests of that connection, and all of them that are not being handled at that moment; a record carrying request id 65535 is indistinguishable from such a notification. A request that was being handled may be left over forever.", "quantifier": "every set of requests and every interleaving; a witness for id 65535", "why_tests_cant": "Requires all request sets and a schedule.", "anchors": ["src/manager.cpp: Manager_base::push", "include/fastcgi++/protocol.hpp: badFcgiId"]}
{"id": "C33", "title": "Stopping waits for all requests and then terminates", "statement": "After stop, handler threads leave only when no request is left; when none is left and the last one to go since the stop was not lost with its connection, all of them leave. After terminate all leave. (Refuted beyond: if the last request disappears through a connection loss while all threads sleep, nothing wakes them; and once they have left, a request that comes in on a connection still open is taken in and never handled.)", "quantifier": "every interleaving", "why_tests_cant": "A hang needs a specific schedule.", "anchors": ["src/manager.cpp: Manager_base::handler, push, stop"]}
{"id": "C34", "title": "What management records are answered with", "statement": "A management record of any type but GET_VALUES is answered with exactly one well-formed UNKNOWN_TYPE record on id 0 with that type. A GET_VALUES record that does not begin with a complete pair is not answered. Handling any other GET_VALUES record never ends: its first name, if it is one of the three known ones, is answered with its value over and over without bound, each time with a record two bytes longer than its header declares. Every value reply is a whole number of eight byte chunks long and padded by no more than that takes. (So the claim that management records are answered with finitely many well-formed records is false.)", "quantifier": "every management record", "why_tests_cant": "Non-termination cannot be observed by a finite test; well-formedness ranges over all records.", "anchors": ["src/manager.cpp: Manager_base::localHandler", "include/fastcgi++/protocol.hpp: ManagementReply"]}
{"id": "C35", "title": "Multipart forms decode to the parts that were encoded", "statement": "Parsing the multipart/form-data encoding of a list of parts (names and file names without quotes, bodies arbitrary bytes not containing the boundary) yields exactly those text fields and files, in order, byte for byte. From any other body, too, every content handed over is a stretch of it between an empty line and the next boundary, with nothing taken off but the two bytes before the boundary and an end of line.", "quantifier": "every list of parts, every body, every boundary", "why_tests_cant": "Unbounded inputs.", "anchors": ["src/http.cpp: Environment::parsePostsMultipart"]}
{"id": "C36", "title": "CGI variables are classified and converted correctly", "statement": "Request method, numeric variables, path segments and accepted languages are converted from their text as documented for every value; any variable not specially known is stored verbatim under its own name with the last value winning.", "quantifier": "every name and value", "why_tests_cant": "All values.", "anchors": ["src/http.cpp: Environment::fill, atoi", "include/fastcgi++/http.hpp: RequestMethod"]}
{"id": "C37", "title": "Byte block container behaves like a resizable array", "statement": "After every history of Block operations the size never exceeds the reserve, data below the size survives reserve changes and growth, assignment stores exactly the given bytes, and a moved-from block is empty.", "quantifier": "every history of operations", "why_tests_cant": "Unbounded histories.", "anchors": ["src/block.cpp: Block"]}
{"id": "C38", "title": "Chunked body buffer holds exactly what was written", "statement": "Narrow text: after every history of writes the chunks' contents concatenate to the (encoded) text, all but the last chunk are full and the last is not, and nothing is undefined; writing ends exactly when no escape would lie across the end of a chunk, and otherwise loops for ever. Wide text of characters UTF-8 can represent: writing always ends, the chunks hold its UTF-8, no character is split between two chunks and none but the last chunk has room for four more bytes; whatever is written, what the body holds stays in it. (Refuted beyond: writing encoded text does not always end; destroying a narrow buffer after its body was taken is undefined behaviour; for wide text with a character UTF-8 cannot represent what precedes it may be stored twice.)", "quantifier": "every history of writes", "why_tests_cant": "Alignment with 4096 byte chunks; non-termination.", "anchors": ["src/chunkstreambuf.cpp: ChunkStreamBuf::emptyBuffer", "src/webstreambuf.cpp: WebStreambuf::xsputn"]}
{"id": "C39", "title": "HTTP client upload delivers the body exactly", "statement": "For every sequence of buffer sizes libcurl offers, the bytes handed out are the request body in order, each once, and the announced size equals their number. (Refuted for the end of life of narrow requests: once its body has been read out, destroying the request is undefined behaviour.)", "quantifier": "every body, every chunking and every sequence of buffer sizes", "why_tests_cant": "Unbounded schedules of callbacks.", "anchors": ["src/curl.cpp: Curl_base::readCallback, Curl_base::prepare"]}
{"id": "C40", "title": "HTTP client response is reassembled exactly", "statement": "For every split of the response body into write callbacks (of wide strings, one that splits no character) the received data is the concatenation, given that a Content-Length is below 2^31 and comes before the data; header lines are split at the first colon and trimmed. Under each name the first line's value is kept. (Refuted beyond, for wide strings, when a character straddles two callbacks: the transfer is aborted; a byte that is not UTF-8 silently loses its piece. Refuted for a Content-Length after data, which discards what was received, and for one of 2 GiB or more, which throws through libcurl.)", "quantifier": "every body, every split, every header line", "why_tests_cant": "Unbounded splits.", "anchors": ["src/curl.cpp: injectResponse, injectHeader, headerCallback"]}
{"id": "C41", "title": "HTTP client never exceeds its concurrency and completes each request once", "statement": "At most the configured number of transfers run at a time, queued requests start in the order they were queued in and none is left out. A request given a callback and queued once has that callback called once it is done, never earlier and never twice, and it has been called when the thread ends after stop(); the thread ends only when told to, and after stop() only with nothing queued or running. No queue(), stop() or terminate() goes unnoticed by the sleeping thread, and the process is not made to fail. This holds only of requests used once: one queued again before it is done makes the process fail, and one given a new callback and queued again by a user its callback has told may be done without that being reported, since the callback is cleared after it has been called.", "quantifier": "every interleaving of the handler thread with any number of threads calling queue, stop and terminate, every concurrency, every order of completions", "why_tests_cant": "Unbounded histories.", "anchors": ["src/curler.cpp: Curler::handler, queue"]}
{"id": "C42", "title": "Mail is not lost before the server accepts it", "statement": "Whatever the network, the server and the callers do, emails that have a recipient are dealt with in the order they were queued in and none is lost: at every moment those queued are those handed over, the one at hand and those waiting. An email is let go only when, on one connection, the lines acted on are those by which a server takes it (220, the EHLO extensions with 8BITMIME, 250 to MAIL and to RCPT, 354 to DATA, 250 to the data) and all commands and all of the body have been written; those lines are the lines the server sent, in whatever pieces they arrived, as long as the variable examined before anything is read into it does not hold a line feed. On an open connection commands are issued only in that order. The thread ends only when told to, and after stop() only with everything handed over; a server that plays its part is handed the email. Refuted beyond that: the idle thread never waits and examines a variable without a value, an empty line or a server hanging up makes the behaviour undefined, an unterminated reply may be believed, a server naming 8BITMIME last or greeting with several lines is refused, a line feed in an address makes a command of what follows, an email may be sent more than once, one without recipient disappears, commands end with a bare line feed.", "quantifier": "every sequence of server replies, disconnects and retries", "why_tests_cant": "Adversarial server behaviour over unbounded time.", "anchors": ["src/mailer.cpp: Mailer_base::handler, queue"]}
{"id": "C43", "title": "Mail body arrives as written", "statement": "When an email has been handed over, what was sent between the server's two answers to DATA is exactly its body and the end of data, and what an SMTP server makes of that is the body (and a line end) just when no line of the body begins with a dot. For other bodies the message arrives damaged (refuted in general): a first dot is lost, and a line of a single dot ends the message, what follows being taken for commands.", "quantifier": "every body", "why_tests_cant": "All bodies.", "anchors": ["src/mailer.cpp: Mailer_base::handler", "src/email.cpp"]}
{"id": "C44", "title": "SQL parameters and fields carry their values", "statement": "For every parameter type (booleans, numbers, texts, wide texts, byte strings, times, dates, addresses and one-dimensional arrays of numbers or texts) and every value of it within the server's range, wide texts being of Unicode scalar values, byte strings not empty, encodings shorter than two gibibytes and arrays made from their elements, the bytes given to PostgreSQL are ones its receive functions read as the very value the parameter was made from, with the right type number, format, size and nulls; a field read from what the server sends for a value gives that value; and decoding a parameter's own bytes gives its value again. (Beyond those values the claim is false: a byte string without bytes goes as a null; an array of four gibibytes or more overruns its buffer; an array made by its size never gets its element lengths; a wide text with an unencodable character goes as an empty text and cuts an array short; an array with a null element is not delivered at all; an IPv4 address comes back to the server as IPv6; infinite times and dates are undefined to read.)", "quantifier": "every value of every type, every array length and every list of parameters", "why_tests_cant": "Unbounded arrays.", "anchors": ["src/parameters.cpp: Parameter<ARRAY<..>>", "src/results.cpp: Results_base::field"]}
{"id": "C45", "title": "SQL column verification accepts exactly the matching results", "statement": "Verifying a result against the expected column types returns success exactly when the number of columns agrees and each column's type matches, otherwise the documented error for the first offending column. A row without nulls is then read as the server sent it. (Refuted: that verification makes row() safe; a null in a column of numbers, times, dates or arrays leaves row() without a defined value.)", "quantifier": "every result shape and every expected row type", "why_tests_cant": "All shapes.", "anchors": ["include/fastcgi++/sql/results.hpp: verify", "src/results.cpp: verifyColumn"]}
{"id": "C46", "title": "SQL queries are answered at most once and in order", "statement": "Queries are sent in the order they were queued, those of lost connections being put back first; each connection has at most one query at a time and there are never more in flight than allowed; each queued query is at any time waiting, in flight, completed or given up; its callback is called exactly once when it completes and otherwise never; the results object has the first result that came; and the thread does not sleep while a query and an idle connection are there. (What one might expect beyond that is false: stop gives up the queries in flight; a query that cannot be sent is dropped and the loop goes on with an invalid iterator; unasked input ends the process; a query without results object is undefined behaviour; a query sent again keeps what came from the lost connection, as does a results object used again; queue may accept a query when the thread has ended and reads the connections without a lock; a query too long for one write is never flushed.)", "quantifier": "every sequence of queue calls and server events", "why_tests_cant": "Unbounded histories.", "anchors": ["src/connection.cpp: Connection::handler, kill, queue"]}
{"id": "C47", "title": "Locale selection picks the client's first supported language", "statement": "The chosen locale index is that of the first locale that starts with the earliest acceptable language, and the default when none matches.", "quantifier": "every list of languages and locales", "why_tests_cant": "Unbounded lists.", "anchors": ["src/request.cpp: Request::pickLocale"]}
{"id": "C48", "title": "Which resolved addresses listening and connecting try", "statement": "For every list of resolved addresses and every pattern of failures: connecting tries the first two addresses, each once, and uses the first that works; listening tries the first once and then the second until it works, and uses the one that worked. (Refuted beyond: listening does not end when the first two keep failing though a third would work; connecting ignores all but the first two.)", "quantifier": "every list of candidates and every failure pattern", "why_tests_cant": "Non-termination and unbounded lists.", "anchors": ["src/sockets.cpp: SocketGroup::listen, SocketGroup::connect"]}
{"id": "C49", "title": "Which bytes sent are determined by the program", "statement": "The bytes of a record sent that the program never writes are the reserved byte of the header, the padding, the seven reserved bytes of an UNKNOWN_TYPE body and the three of an END_REQUEST body, and no others. (So every record sent has undetermined bytes.)", "quantifier": "every record", "why_tests_cant": "Indeterminate bytes look like zeros in most test runs.", "anchors": ["src/fcgistreambuf.cpp", "src/request.cpp: Request::complete", "src/block.cpp"]}
{"id": "C50", "title": "Socket registration is consistent", "statement": "In every history of accept, poll, read, write and close, a connection is open exactly when it is registered for polling, a closed socket is never read or written again, closing is idempotent, and the reported size counts the open connections and, once each, the descriptor numbers that the kernel has ever refused for polling; a connection taken in is kept unless the kernel refuses it or has ever refused its number. (So the size is not the number of open connections, and one refusal makes every later connection with that number be closed at once.) Destroying the group closes every descriptor and leaves no socket valid.", "quantifier": "every history of socket operations and kernel results", "why_tests_cant": "Unbounded histories with adversarial kernel results.", "anchors": ["src/sockets.cpp: Socket::close, read, write, SocketGroup::poll, createSocket"]}
{"id": "C51", "title": "Request handling threads never deadlock", "statement": "In every reachable state of the handler threads and pushers, some thread can step unless all are waiting for work that does not exist, even if the shared lock on the requests prefers writers; provided that stop and terminate do not interrupt the manager's own code and no destroyed request is used. (A signal handler that calls stop can interrupt such code, and then deadlocks.)", "quantifier": "every number of threads and every interleaving", "why_tests_cant": "Deadlocks need particular schedules.", "anchors": ["src/manager.cpp: Manager_base::handler, push", "src/request.cpp: Request::handler"]}
{"id": "C52", "title": "End to end: a request arrives at the application as the web server sent it", "statement": "Whatever the network and the threads do, a request object is given exactly the records that the web server sent on its connection with its id after the record that began it, in order, none missing and none twice; for a request of a web server the application gets exactly the calls for these parameters and this body, none of them undefined; and when the server is at rest with the connection open, each request that was begun has arrived in full. Every record that is to begin a request begins one, unless a request with the same id is still there, to which it is then given; so the first request with an id on a connection always arrives. (Refuted for an id used again right after its END_REQUEST: the request it belonged to may still be there, and the new one is lost without an answer.)", "quantifier": "every fragmentation of the byte stream, every interleaving of any number of handler threads with the I/O thread, any number of connections and concurrent requests, every application, parameters and body", "why_tests_cant": "Unbounded product of schedules, fragmentations and request contents.", "anchors": ["src/transceiver.cpp: Transceiver::receive, handler", "src/manager.cpp: Manager_base::push, handler", "src/request.cpp: Request::handler", "src/http.cpp: Environment::fill"]}
{"id": "C53", "title": "Session cookie expiration covers the session's life", "statement": "The expiration text offered for session cookies is later than the expiry of every live session right after any lookup. (Refuted in general: it is refreshed by lookups only, so after a quiet period a freshly generated session is given an expiration in the past.)", "quantifier": "every history of session calls, every keep-alive, every clock", "why_tests_cant": "Depends on the relation between arbitrary call times.", "anchors": ["include/fastcgi++/http.hpp: Sessions::expiration, Sessions::setExpiration, Sessions::get"]}
{"id": "C54", "title": "Every standard address text is understood", "statement": "Parsing a standard IPv6 or IPv4 text, from memory or from a stream, yields the address it denotes, whatever the letter case, leading zeros, position of the \"::\" and trailing dotted quad, other than the deprecated form \"::a.b.c.d\". (Refuted for that form, which is taken for the IPv4-mapped address.)", "quantifier": "every standard text, every previous content, everything that may follow the text", "why_tests_cant": "Infinitely many spellings of 2^128 addresses.", "anchors": ["src/address.cpp: Address::assign, operator>>"]}
{"id": "C55", "title": "Management records are never taken from an empty queue", "statement": "Whenever a handler thread goes to answer a management record, the queue of management records holds one, so each is answered once and none is read from an empty queue, which would be undefined.", "quantifier": "every number of threads and every interleaving", "why_tests_cant": "Depends on the balance of two queues under every schedule.", "anchors": ["src/manager.cpp: Manager_base::push, handler, localHandler"]}
{"id": "C56", "title": "A request begins only with a BEGIN_REQUEST record, once", "statement": "Every request object was created for one BEGIN_REQUEST record, carries the connection and id of that record, and no two live requests share connection and id; other records for unknown ids create nothing.", "quantifier": "every number of threads and every interleaving", "why_tests_cant": "Requires all schedules of pushes against removals.", "anchors": ["src/manager.cpp: Manager_base::push"]}
{"id": "C57", "title": "A completed request is removed", "statement": "Once a request's handler reports completion, the request is destroyed by the thread that handled it; when everything has come to rest no completed request is left.", "quantifier": "every number of threads and every interleaving", "why_tests_cant": "Requires all schedules.", "anchors": ["src/manager.cpp: Manager_base::handler"]}
{"id": "C58", "title": "After stop the listening sockets are left alone", "statement": "Once stop has been called no new connection is taken in, and once it has returned and the I/O thread has gone round its loop to sleep the listening sockets are no longer in the poll list, so that clients wait for a server that takes them; provided the I/O thread was not refreshing the listeners between the two flags that stop sets. (Without that the claim is false: they stay in the list, and connections are accepted only to be closed at once.)", "quantifier": "every interleaving of any number of calling threads with the I/O thread", "why_tests_cant": "Needs a specific interleaving of two writes with the refresh.", "anchors": ["src/sockets.cpp: SocketGroup::accept, SocketGroup::poll, SocketGroup::createSocket", "src/transceiver.cpp: Transceiver::stop"]}
{"id": "C59", "title": "End to end: responses reach the web server whole, in order and not mixed up", "statement": "The bytes sent over a connection are those of whole records in the order they were sent, cut off somewhere; each belongs to one request of that connection or answers a management record; the records of a request carry its id and are its stream records followed by at most one END_REQUEST, final exactly if the web server did not ask to keep the connection; records of two requests with the same id are not mixed; and at rest with the connection open everything is on the wire, a request that is gone having been ended.", "quantifier": "every schedule of handler threads and the I/O thread, every pattern of short and failed writes, any number of connections and requests", "why_tests_cant": "Interleavings of several requests' output with partial writes cannot be enumerated.", "anchors": ["src/request.cpp: Request::complete, handler", "src/fcgistreambuf.cpp: FcgiStreambuf::emptyBuffer", "src/transceiver.cpp: Transceiver::send, transmit", "src/manager.cpp: Manager_base::handler, localHandler"]}
{"id": "C60", "title": "Left to themselves the handler threads come to rest with nothing undone", "statement": "As long as nothing comes from outside, the handler threads and the threads inside push take finitely many steps however they take turns; where none can go on each is idle (given that no signal handler interrupts code holding a lock and no destroyed request is used, see C51 and C32); and when all are idle and there is a handler thread, no task is queued, every management record has been handed over and each live request has been given every message pushed to it.", "quantifier": "every number of threads, requests and messages, every interleaving from every reachable state", "why_tests_cant": "Termination over all schedules is not observable by any finite test.", "anchors": ["src/manager.cpp: Manager_base::handler, push, stop, terminate", "src/request.cpp: Request::handler"]}
{"id": "C61", "title": "Text to floating point conversion", "statement": "atof gives a whole number below 2^24, with or without sign, exactly, stopping at the first other character; for any number below 2^126, of up to 1000 digits and up to 300 more behind a point, a float that is off by at most 2^-24 + 2^-40 of the number, or by 2^-149; and for a number below one hundred with two digits behind the point the nearest float. (Refuted beyond: with 324 or more digits behind the point the weight of the next digit underflows to zero, which is taken to mean that no point was seen, so that 1.000...0 gives 10; a second point does not end the number, 1.5.5 gives 2.)", "quantifier": "every text; every IEEE 754 double operation rounded as specified", "why_tests_cant": "The failing inputs need hundreds of digits; exactness concerns 2^24 values in every context.", "anchors": ["src/http.cpp: Http::atof"]}
{"id": "C62", "title": "Whom a message sent with a request's callback reaches", "statement": "What a request is given besides the records of the web server was sent with the callback of a request of the same connection and id, each message is given at most once, and a message sent while the request is there throughout the call is given to it. (That it reaches that request and no other is false: the callback carries only connection and id. When the request is gone, aborted for instance, and the web server uses the id again, the message is given to the new request, whose response is called with it at once, before any parameter has arrived; what it answers goes out as the response to the other client.)", "quantifier": "every application, every schedule of handler threads, application threads and the I/O thread, any number of requests and messages", "why_tests_cant": "The wrong delivery needs an answer that comes late, after the id was used again.", "anchors": ["src/manager.cpp: Manager_base::push", "include/fastcgi++/manager.hpp: Manager::makeRequest", "src/request.cpp: Request::handler", "include/fastcgi++/request.hpp: Request::callback"]}
{"id": "C63", "title": "Text that is not an address is refused", "statement": "An address is taken from a stream only when the text used up consists of groups of hexadecimal digits between colons with at most one gap, eight of them or a gap, or of a dotted quad of decimal numbers behind at most six groups; likewise in memory, where nothing is asked of what is behind the eighth group and little of what is behind the first dot. Otherwise the stream fails and the address is unchanged, or becomes the null address. (Refuted beyond: groups of more than four digits, signs, numbers above 255 and, in memory, letters behind the first dot are taken; and after a quad behind too few groups without a gap the remaining bytes are indeterminate or those of the old address.)", "quantifier": "every input, stream position, old content and text", "why_tests_cant": "No set of malformed texts is exhaustive.", "anchors": ["src/address.cpp: operator>>, Address::assign"]}
{"id": "C64", "title": "Starting, stopping, joining, resizing and destroying a manager", "statement": "Destroying a manager works exactly when every start was followed by a join, and aborts the program otherwise; start gets all threads running if none has ended since the last join and changes nothing in a running manager; there are as many handlers as given to the constructor or to resizeThreads before the first start or after stop and join; join comes back only after stop or terminate, and then no thread is running; a handler thread can leave exactly if terminate was called since the last start, or stop and there is no request, and the I/O thread exactly if terminate was called, or stop and there is no connection. (Refuted beyond: started again after a stop without a join in between, the manager has no thread at all and gets none, and join comes back at once; after terminate and join resizeThreads does nothing; between stop and join a smaller number aborts the program; start on a manager that is still stopping undoes the stop.)", "quantifier": "every sequence of calls and every moment at which the threads end, any number of threads", "why_tests_cant": "The order of calls and thread ends is not under a test's control, and an abort ends the test.", "anchors": ["src/manager.cpp: Manager_base::start, stop, terminate, join, resizeThreads, ~Manager_base", "src/transceiver.cpp: Transceiver::start, stop, terminate, join, handler, ~Transceiver"]}
{"id": "C65", "title": "A refused request gets exactly the page for the reason", "statement": "When an application overrides response alone and response has not been called, a request refused gets on its output stream exactly the library's page and nothing else, nothing on its error stream, and END_REQUEST: the 500 page for a record out of order, and with status UNKNOWN_ROLE for an unknown role, the 413 page for a body announced too long or longer than announced, the 415 page for a body of a type not known, no text for an abort. Once response has written something the 500 page follows it. (Refuted: if response left escaping on, the page is escaped too.)", "quantifier": "every application overriding only response, narrow and wide, every sequence of messages before", "why_tests_cant": "The page has to be right after every possible beginning of a request, for every split into records.", "anchors": ["src/request.cpp: Request::handler, errorHandler, bigPostErrorHandler, unknownContentErrorHandler, complete", "include/fastcgi++/request.hpp: Request::inProcessor, inHandler"]}
{"id": "C66", "title": "The log is whole lines, none lost, and a failure ends it", "statement": "Whatever threads log, the log is whole lines, each a stamp, the level and the message, with at most one unfinished line at the end; the lines of a thread stand in the order it logged; unless suppressed every use of a level the program was built with has its line, an ERROR_LOG even when suppressed; the program exits only after the line of a FAIL_LOG, which is the last one and does not return; no thread waits for ever. (Refuted beyond: with suppress set FAIL_LOG returns instead of exiting; an expression logged that logs itself, a signal arriving at a thread that is logging, since the manager's signal handler logs, and a destructor of a static object that logs while FAIL_LOG exits each lock the mutex a second time.)", "quantifier": "every number of threads, every schedule, every message, every log level of the build, suppress changed at any time", "why_tests_cant": "Interleavings of lines depend on the schedule, and a deadlock or an exit ends the test.", "anchors": ["include/fastcgi++/log.hpp: INFO_LOG, FAIL_LOG, ERROR_LOG, WARNING_LOG, DEBUG_LOG, DIAG_LOG", "src/log.cpp: Logging::header", "src/manager.cpp: Manager_base::signalHandler"]}
{"id": "C67", "title": "Starting, stopping, joining and destroying HTTP client, SQL connection and mailer", "statement": "Destroying one of them works exactly when every start was followed by a join, and aborts the program otherwise; start gets the thread running unless it has ended without a join since and leaves a running one alone; the thread leaves only after terminate, or after stop once all work is done, and then it can, which no start in between changes; join comes back only after stop or terminate. (Refuted beyond: a stop before start is forgotten; after stop start does nothing until join was called; HTTP client and mailer take work after their thread has left and never do it; on objects that are not static stop, terminate and queue of an HTTP client and queue of an SQL connection examine members without a value before the first start.)", "quantifier": "every sequence of calls and every moment at which the thread gets work done and ends", "why_tests_cant": "The order of calls and the end of the thread is not under a test's control, and an abort ends the test.", "anchors": ["src/curler.cpp: Curler::start, stop, terminate, join, queue, wake, ~Curler", "src/connection.cpp: SQL::Connection::start, stop, terminate, join, queue, ~Connection", "src/mailer.cpp: Mailer::start, stop, terminate, join, queue, ~Mailer"]}
{"id": "C68", "title": "The poll list on systems without epoll", "statement": "After any adds and deletes the list has each registered descriptor exactly once; add succeeds just when the descriptor was not registered and del just when it was, as with epoll; poll tells of a registered descriptor that is ready, with its events, whenever there is one; a descriptor that stays ready is told of after at most as many polls as there are descriptors if none told of gets ready again meanwhile. (Refuted without the last condition: a descriptor registered earlier that is ready at each poll keeps all later ones from ever being told of.)", "quantifier": "every sequence of calls and every answer of the system call", "why_tests_cant": "Which of several ready descriptors is taken matters only under load; the starvation is endless.", "anchors": ["src/poll.cpp: Poll::add, Poll::del, Poll::poll (FASTCGIPP_UNIX)"]}
{"id": "C69", "title": "An application's page arrives whole: hello world and echo", "statement": "An application whose response writes a page and returns true answers each well-formed request with exactly the text of that page, escaped and encoded as asked, then END_REQUEST. Hello world answers each request without a body with the same bytes. The echo page has always the same header, shows each parameter, field and cookie with its value, escaped, and as long as no uploaded file holds '<' or '>', nothing a visitor sends adds or changes a tag. (False beyond: the content of an uploaded file is put into the page as it is, so its tags become tags of the page; an Accept-Language with a byte above 127 makes the whole page vanish in the \"C\" locale.)", "quantifier": "every page, every well-formed request in any records, every environment", "why_tests_cant": "There is no end of requests to try, and injection concerns all texts.", "anchors": ["examples/helloworld.cpp: HelloWorld::response", "examples/echo.cpp: Echo::response", "src/request.cpp: Request::handler, complete", "src/fcgistreambuf.cpp: emptyBuffer, dump"]}
{"id": "C70", "title": "The sessions example: a session belongs to whoever holds its cookie", "statement": "Each visit to the sessions example gets one of four pages, byte for byte, decided by the cookie, the command and the history of the sessions alone: the text of the login, escaped, while the cookie names a live session; the farewell page when logging out of it; a new session when logging in without one; the login form otherwise. The cookie set by a login, sent back among any others, names that session; coming back with it before it expires shows the text of the login, whatever other visitors do; after logging out that id is in no session. (Refuted beyond: with a standard library that writes single characters by put, the id in the cookie is not escaped and an id with a plus sign does not come back; an empty or malformed cookie leaves the id as the memory was, so it can show another visitor's session; a cookie with line ends after the id is sent back as it is and can end the header early.)", "quantifier": "every history of the sessions, every interleaving with other threads, every request, id, text and clock that does not go back", "why_tests_cant": "Ids are random, the history is unbounded and other visitors interleave.", "anchors": ["examples/sessions.cpp: Sessions::response, handleSession, handleNoSession, header, footer", "include/fastcgi++/http.hpp: Http::Sessions, Http::SessionId, operator<<", "src/http.cpp: SessionId::SessionId"]}
{"id": "C71", "title": "The email example: one form, one mail", "statement": "Posting the form of the email example with all its fields queues exactly one mail: its recipient and sender are those of the form with every line end made a space, its header has exactly the five lines of From, To, Subject, Date and Content-Type, and its document shows subject and message escaped, one paragraph for each part of the message between double line ends; its tags depend on the number of paragraphs alone. Whatever is posted, addresses hold no line end, so nobody adds a command through them. A form without recipient, sender or subject, and anything but a POST, queues nothing. (Refuted beyond: a form without message is undefined behaviour, since the wrong iterator is examined; a message with a line of a single dot makes the server take what follows for commands; with an empty recipient the page says the mail is queued and it is never sent.)", "quantifier": "every form, every text of it", "why_tests_cant": "Injection concerns all texts, and no test has all of them.", "anchors": ["examples/email.cpp: EmailSender::response, send, removeLines", "src/email.cpp: Email::to, from, close", "src/chunkstreambuf.cpp: ChunkStreamBuf<wchar_t>::emptyBuffer"]}
{"id": "C72", "title": "The timer example: messages resume a request, one for each wakeup", "statement": "A request whose response returned false is called again for each message of the application, in order and with its state as it was left, until response returns true; what all the calls wrote is exactly what is sent, END_REQUEST last, and what was written before a flush is at the server before the next message. So the timer's page grows by one number with each callback and ends with the fifth. Its stopwatch, over all interleavings of pushes, starts, stops and spurious wakeups, calls each item once if no two wakeups are equal, never before its time and never before an earlier one, loses no wakeup, calls each item whose time has come after a number of turns given by the earlier items alone, and after stop calls nothing but keeps all items for the next start. (Refuted: an item whose wakeup equals that of a queued one is dropped, so that its request never ends.)", "quantifier": "every application overriding only response, every number of messages, every interleaving of the stopwatch's thread with callers and time", "why_tests_cant": "Equal wakeups, spurious wakeups and pushes during a wait do not happen on demand.", "anchors": ["examples/timer.cpp: Timer::Stopwatch, Timer::response", "src/request.cpp: Request::handler, complete", "include/fastcgi++/request.hpp: Request::callback"]}
{"id": "C73", "title": "The gnu example: the page of the visitor's language, or that it has not changed", "statement": "Each well-formed request to the gnu example is answered: under /gnu.png with the bytes of the image, or a 304 if the date given is not earlier than the start; otherwise with the page of the locale chosen by the visitor's languages (the first that speaks the first language served, else Canadian English), byte for byte, or a 304 if the tag given is that locale and the date is not earlier. So a visitor who sends back tag and date gets a 304 just when the page they have is the one for them now. (Refuted beyond: a date without tag counts as the tag of the first locale, so whoever has the French page is told that the English one has not changed; the script name is not escaped, so its tags become tags of the page.)", "quantifier": "every image, start, form of dates and numbers, every well-formed request in any records", "why_tests_cant": "Languages, tags and dates combine without end, and what a cache holds is not seen by a test.", "anchors": ["examples/gnu.cpp: Gnu::response, image, html", "src/request.cpp: Request::pickLocale, setLocale", "src/http.cpp: Environment::fill"]}
{"id": "C74", "title": "The sql example: the visitor's row goes in, the table comes out", "statement": "As long as the rows of the table have no nulls and no time beyond the years 1678 to 2262, a request to the sql example makes the insert and then the select, each once, with the visitor's address; nothing is sent before the last callback; it is answered with the table of the rows the server gave, one line each in order, just when the insert was one row done and the select gave rows of the right columns, and with the error page otherwise. What the insert gives arrives at the server as it is, and a row with just that shows its date, address and string. The tags of the page depend on the number of rows alone. (Refuted for all rows the table may hold: a null time, or one beyond the year 2262, passes all checks and is undefined behaviour.)", "quantifier": "every answer of the connection and server, every time, address and string, every well-formed request in any records", "why_tests_cant": "What a server answers, and in which combination, is without end; undefined behaviour may look like a date.", "anchors": ["examples/sql.cpp: Database::response", "src/results.cpp: Results_base::status, affectedRows, rows", "include/fastcgi++/sql/results.hpp: Results::verify, row", "src/request.cpp: Request::handler, complete"]}
{"id": "C75", "title": "Listening on a name: which files and descriptors come and go", "statement": "Listening on a name of at most 107 bytes that returns true adds exactly one listener, on a new socket file of that name with the mode and the owner asked for, and touches no other file; at no moment can a connection be made while the file does not have that mode and owner. If it returns false no descriptor stays open and nothing is recorded for removal; the file of that name may be gone, and a new socket file is left only if chown, chmod or listen failed or the name is too long. No attempt at an interface's addresses leaves a descriptor. Destroying the group ends all listening, closes its descriptors and removes the recorded files and no others, so no socket file outlives it if names fit and no call failed after bind. A longer name can be listened on only without mode and owner; its file is then the first 107 bytes, outlives the group, and makes every later attempt at that name fail. (Refuted: that a failed call leaves or removes no file; that an owner without a group is set; that an unknown owner or group makes the call fail: it is a null dereference.)", "quantifier": "every history of calls, every name, mode and owner, every combination of answers of the kernel, other programs' files changing in between", "why_tests_cant": "Failures between bind and listen, permissions at each moment, and what stays after a crash or a long name are not seen by a test of the happy path.", "anchors": ["src/sockets.cpp: SocketGroup::listen, SocketGroup::~SocketGroup", "include/fastcgi++/manager.hpp: Manager_base::listen"]}
{"id": "C76", "title": "Which shared data is touched without its lock", "statement": "With any number of handler threads and threads calling in, the requests, tasks, messages and their queues, all of a request, the receive and poll lists, the wake flags of sockets and mailer, the curler's queue and handles, and the mailer's queue are free of data races, and no thread takes a lock it has, gives back one it does not have, or ends with one. The seven data races there are: transmit looks whether the send buffer is empty while another thread sends; resizeThreads reads the stop flag while another thread sets it; a handler thread asks whether a socket is valid while the transceiver closes it; listen adds a listener while the transceiver polls; stop and terminate of the curler touch its wake flag without its lock; the SQL thread looks at its queue while a query is queued; queue of the SQL connection counts the connections while its thread adds or drops one. Each of these does happen in some execution, so the claim that no data race exists is false.", "quantifier": "every number of handler and calling threads, every interleaving of their locks, unlocks and accesses, every path through their code", "why_tests_cant": "A race needs two threads at two instructions at once; no test forces that and most runs show nothing.", "anchors": ["src/transceiver.cpp: Transceiver::transmit, send", "src/manager.cpp: handler, push, resizeThreads", "src/sockets.cpp: Socket::close, SocketGroup::poll, listen", "src/curler.cpp: stop, terminate, wake", "src/connection.cpp: handler, queue", "src/mailer.cpp: handler, queue"]}
{"id": "C77", "title": "No set of threads waits for each other's locks", "statement": "Among all threads of the library and any number of threads calling in, no thread ever waits for itself through any chain of locks held and waited for, also if shared locks prefer writers; every thread that has not ended can go on or waits, through such a chain, for one that can.", "quantifier": "every number of handler and calling threads, every interleaving and path; signal handlers, joins and condition variables apart (for these see C51, C60, C64, C67)", "why_tests_cant": "Deadlocks need exact interleavings of several threads over several locks.", "anchors": ["src/manager.cpp: handler, push, stop, terminate, start", "src/transceiver.cpp: transmit, receive, send", "src/sockets.cpp: SocketGroup::wake, accept", "src/curler.cpp: handler, queue", "src/connection.cpp: handler, queue", "src/mailer.cpp: handler, queue, stop"]}
{"id": "C78", "title": "An HTTP client object used for several requests", "statement": "Whatever an object was used for before, after reset the next request goes to the last convertible address given since, is a POST of exactly the text written since (or a GET if there is none) in the pieces libcurl asks for, checks peer and name unless verifySSL said otherwise since (for libcurl from 7.66; before, as the version takes a 1), and what is then there to see is the response to this request alone. The headers are all those ever given, and the encoding is the one last set, both across resets. Once queued, plain writing to the original has no effect until reset. Without reset, responses that announce no length are added up: data behind data, and of headers with the same name the first value. (Refuted: that reset makes the object as new; that a body can be queued twice: narrow it is undefined behaviour, wide it becomes a GET; that an announced length is harmless without reset; that an unconvertible address is not replaced by the one before; that verifySSL(true) after verifySSL(false) checks the name with every libcurl; that a copy may queue, reset or set an encoding; that a queued object may be flushed.)", "quantifier": "every history of calls on the object and its copies, every text, address and header, every way libcurl reads and answers, narrow and wide", "why_tests_cant": "State kept from one use to the next shows only in particular sequences, and undefined behaviour may look right.", "anchors": ["src/curl.cpp: Curl_base::reset, prepare, verifySSL, setUrl, addHeader, readCallback, StreamBuf::injectResponse", "include/fastcgi++/curl.hpp: Curl", "src/chunkstreambuf.cpp: clear, emptyBuffer", "src/webstreambuf.cpp: operator<<(Encoding)"]}
{"id": "C79", "title": "Signals that stop or terminate: when they are safe", "statement": "If SIGUSR1 and SIGTERM come only to threads that have none of four locks (the tasks, the requests, a request's messages, the wake flag of the sockets), such as a thread that waits in join, then no thread ever waits for itself through locks, each thread that has not ended can go on or waits for one that can, no lock is taken twice or given back without being had, and there are no data races besides those there are without signals. This is exact: for each of the four locks, either signal coming to a thread that has that one of them alone can leave a set of threads waiting for each other; these then never go on, whatever happens, and keep the lock of the tasks, so that nothing is handled, stopped or terminated any more. (So the claim that setupSignals is safe whichever thread gets the signal is refuted; the thread in start is an instance.)", "quantifier": "every number of handler and calling threads, every interleaving, signals at every point and nested", "why_tests_cant": "A signal between two particular instructions of a particular thread is not made by a test.", "anchors": ["src/manager.cpp: Manager_base::signalHandler, setupSignals, stop, terminate, start, push, handler", "src/sockets.cpp: SocketGroup::wake, poll, accept"]}
{"id": "C80", "title": "The SQL thread never spins, and what is queued gets done", "statement": "However server and callers behave, the number of steps the SQL connection thread takes is at most (9 + 2c)(1 + b + e), where c is the number of connections allowed, b the wake-up bytes waiting and e the number of socket events, timeouts, wake-ups and starts that come to it. If from some moment libpq and the server do their part (logging in works, queries can be sent, what is reported of a connection is the whole answer to its query, with a results object to put it in), then in whatever order things come, within (9 + 2c)(2 + b + p) steps, p being the queries waiting and in flight, there is nothing more to do; until then something always can be done; and if neither stop nor terminate is called every one of those queries is then completed and its callback has been called. Told to stop or terminate, and woken, the thread then has ended.", "quantifier": "every number of connections, every reachable state, every behaviour of server, libpq and callers (first claim), every order of events of a server that does its part (the rest)", "why_tests_cant": "That something always happens in the end, from any state and under any order, is not seen in finitely many runs.", "anchors": ["src/connection.cpp: Connection::handler, connect, queue, stop, terminate"]}
{"id": "C81", "title": "Connecting by name", "statement": "Whoever listens on a name (listen returned true) is who connect reaches with this name, and with every name that has the same first 107 bytes, until listen is called for such a name again or another program touches the file; and whatever connect reaches is listening, by a call of listen that returned true for a name with the same first 107 bytes. A connect that fails leaves no descriptor. listen for a name that is already listened on takes it over: the first listener goes on listening, but no name leads to it any more, whatever happens later (so the claim that a name in use is refused is false).", "quantifier": "every sequence of calls of listen in all its forms with every answer of the kernel, every other program's changes of files, every name", "why_tests_cant": "Names longer than the address field, a second instance of a program started on the same name, and failures between system calls are not what tests set up.", "anchors": ["src/sockets.cpp: SocketGroup::connect(const char*), SocketGroup::listen"]}
{"id": "C82", "title": "The HTTP client's thread never spins, and what is queued gets done", "statement": "However callers and network behave, the number of steps the HTTP client's thread takes is at most 6 + 6b + 3r + 6e, where b is the number of wake-up bytes waiting, r that of the requests queued and running, and e that of the network events in poll plus the steps of calls to queue, stop and terminate. If no call is under way, and from then on the network is reported as long as a request is running and something is done each time (C88 says when that is not so), then in whatever order this happens, within 8(1 + b + r) steps, there is nothing more to do; until then something always can be done; and if the concurrency is not 0 and no request was queued twice, then the thread has ended if it was told to terminate; otherwise every request queued is done, once, the callback of each that was given one and queued once has been called exactly once, and the thread has ended if it was told to stop and sleeps if not. (With a concurrency of 0 nothing queued is ever started.)", "quantifier": "every concurrency, every number of threads and requests, every reachable state, every behaviour of network and callers (first claim), every order in which requests get done (the rest)", "why_tests_cant": "That something always happens in the end, from any state and under any order, is not seen in finitely many runs.", "anchors": ["src/curler.cpp: Curler::handler, queue, stop, terminate, wake", "include/fastcgi++/curl.hpp: callback"]}
{"id": "C83", "title": "With a mail server that does its part all mail is handed over", "statement": "Let the server's answers have at most k bytes (k > 12) and the server say in at most x lines what it can do, 8BITMIME not being the last of them. From any state in which it has said nothing wrong on the present connection, and terminate not called, if connections can be made, writes go out, and part of a good answer is there whenever the connection is reported, then after more than 3(1 + (x + 9)k)(1 + m) + 3w steps of the mail thread, m being the emails unsent and w the times it is woken, every email with a recipient ever queued has been handed over, in order; behaviour stays defined, the thread can always go on, ends only if told to stop and with everything handed over, and if told to stop does end. When something goes wrong (no connection can be made, a bad answer, a write that fails) the connection is closed and no other is made before the time for a retry has been waited for. (Refuted: that the retry interval is kept in general: a server that hangs up is connected to again at once, any number of times; and that the thread waits when there is nothing to do: with the connection closed it goes round without end.)", "quantifier": "every number of emails, every length and number of answers and every way they arrive in pieces, every reachable state, every interleaving with wake-ups", "why_tests_cant": "That all mail is sent in the end, from any state and however answers are cut up, is not seen in finitely many runs; a busy loop passes every functional test.", "anchors": ["src/mailer.cpp: Mailer::handler, queue, stop, terminate", "src/sockets.cpp: SocketGroup::poll"]}
{"id": "C84", "title": "The form in which an address is printed", "statement": "An IPv4-mapped address is printed as ::ffff: and its four bytes in decimal; any other as its eight words in lower-case hexadecimal without leading zeros, with :: in place of the last of the longest runs of zero words if there is a zero word. This is the text RFC 5952 recommends (every address has exactly one) exactly if the address is IPv4-mapped, or has only one longest run of zero words and that run is of more than one word, or has no zero word (refuted in general: of two longest runs the wrong one is left out, and a single zero word is left out). No standard text of an address that is not IPv4-mapped is shorter by more than one character (one may be by one). In a field wider than the text the fill character makes up the width, on the side chosen; nothing is cut off.", "quantifier": "all 2^128 addresses and all their standard texts", "why_tests_cant": "The 2^128 addresses cannot be enumerated; comparing with a few texts says nothing of ties and positions of runs.", "anchors": ["src/address.cpp: operator<<"]}
{"id": "C85", "title": "Sending goes on while clients read", "statement": "From any reachable state of the transceiver, with m records (b bytes of them) not yet written, if clients take at least a byte whenever written to (or the write fails), then after 5b + 2m + 5 steps of the I/O thread, whatever is sent or received meanwhile, everything handed to send before is with the kernel for every connection that is still open on both sides, and a connection with a final record among it is not; the I/O thread always can go on. The number of steps the I/O thread takes is at most 15(1 + w + q + e), where w is the number of wake-up bytes, q that of queued records, and e that of events from outside (steps of calls in other threads, events of sockets, signals, and writes not taken whole). (Refuted: that a client that does not read affects only itself: while its record is first nothing is sent to anybody, for ever; and that the thread waits meanwhile: it goes round without end.)", "quantifier": "every reachable state, any number of connections, records and bytes, every way writes are taken in parts, every interleaving with other threads and the network", "why_tests_cant": "That something is written in the end however the kernel cuts it up is not seen in finitely many runs; a busy loop passes every functional test.", "anchors": ["src/transceiver.cpp: Transceiver::transmit, handler, send", "src/sockets.cpp: SocketGroup::poll, wake"]}
{"id": "C86", "title": "A parameters object assigned to and used again", "statement": "A Parameters object may be assigned to, have array elements assigned and parameters set to null, and be queued with any number of queries. As long as, between queueing a query and its being sent, only parameters are assigned to that are kept in the object itself (booleans, numbers, times, dates, addresses) or are null, and single elements of arrays, the server is given for each parameter the value last assigned before the sending, and a null exactly for those setNull was called for before the queueing (or for a byte string without bytes). (What one might expect beyond that is false: a parameter once set to null is sent as a null ever after, whatever is assigned to it; queries waiting with the same object all go with its latest values; an array assigned to, or a text whose memory changes thereby, while a query waits makes freed memory be read; a text that stays in its memory goes with the length of the old one.)", "quantifier": "every list of parameters, every history of assignments and queueings, every choice of where texts are put", "why_tests_cant": "Unbounded histories, and where memory is freed depends on capacities.", "anchors": ["include/fastcgi++/sql/parameters.hpp: Parameters_base, Parameters::build", "src/parameters.cpp: Parameter<..>::operator=", "src/connection.cpp: Connection::queue, handler"]}
{"id": "C87", "title": "The whole server goes on until all is handled, and answers", "statement": "From any reachable state of the server (I/O thread, handler threads, requests and application together), as long as nothing more is read from the network and no further call from outside is made, the threads take only finitely many steps, however they take turns and whatever the application writes. When none can go on (no signal handler having interrupted code of the manager, no thread using a request that was destroyed), every handler thread waits or has ended, every message read was pushed and everything requests wrote was handed to the transceiver. Before that some thread can always go on; after that the I/O thread can. Whatever happens further, if clients read, after 5b + 2m + 5 steps of the I/O thread (m records, b bytes of them, waiting) all that was sent before is with the kernel for each connection still open. So the first request with an id that a web server sends completely over an open connection, with a handler thread there, gets exactly its calls, and what the application answers is written to its connection.", "quantifier": "every reachable state, every application, every interleaving, any number of connections, requests and threads, every way the kernel cuts up reads and writes", "why_tests_cant": "Absence of endless runs and of deadlock over all schedules of unboundedly many threads and messages cannot be observed in finitely many runs.", "anchors": ["src/transceiver.cpp: Transceiver::handler, transmit, receive, send", "src/manager.cpp: Manager_base::handler, push, localHandler", "src/request.cpp: Request::handler"]}
{"id": "C88", "title": "The HTTP client and libcurl: what is watched, told and heard of", "statement": "The sockets the HTTP client's thread watches are at any time those libcurl last wanted watched, each once, and as long as no wait times out or is interrupted libcurl is told only of those. The callback of a request is called at most once for each time libcurl is done with it and never before; if libcurl was done with it when told of a socket or after a wait ended, it has been called before the thread waits again; if libcurl was done with it as soon as it was started, it has been called once libcurl has been told of a socket the next time. A wait can have a limit just when a transfer is running. (What one might expect beyond that is false: when all requests that may run at a time are done as soon as they are started, a URL libcurl rejects say, their callbacks are never called and nothing queued later is ever started; one such request keeps the thread from ending after stop though nothing is queued or running, so that join never returns; after a wait that timed out or was interrupted libcurl is told of whatever number was in memory, not that the time is up; a transfer waiting for its socket to be writable, as while connecting, is not told when it is.)", "quantifier": "every number of requests, every concurrency, everything libcurl may do in a call, every history of socket events, time limits, signals and calls of queue, stop and terminate", "why_tests_cant": "Whether a transfer is done in the very call that starts it depends on libcurl, cached names and the URL; hanging for ever and uninitialised values are not seen by tests that go well.", "anchors": ["src/curler.cpp: Curler::handler, socketCallback, queue, stop, terminate", "src/poll.cpp: Poll::add, del, poll", "include/fastcgi++/poll.hpp: Poll::Result"]}
{"id": "C89", "title": "Tasks get their turn in order; what can keep a request waiting", "statement": "In every execution the tasks queued for handler threads are taken in the order in which they were queued and none is lost. A thread makes at most 17 + 13t + 4m + 8w steps of its own, where t is the number of tasks it takes, m that of messages and w the times it is spawned or woken. So a task with k others before it is taken, after those and in their order, once a thread has made more than 17 + 13k + 4m + 8w steps. (Refuted: that a request gets its turn however busy another is, and that terminate ends the threads: a thread stays with a request as long as messages for it come in. With one thread there is an execution without end in which the task of another request is the first all the time and its message is never taken, terminate has been called, and the thread never leaves.)", "quantifier": "every reachable state, every interleaving, any number of threads, tasks, requests and messages; for the refutation, an infinite execution", "why_tests_cant": "Starvation is a property of infinite executions; the order of tasks under all schedules of any number of threads cannot be enumerated.", "anchors": ["src/manager.cpp: Manager_base::handler, push, terminate", "src/request.cpp: Request::handler"]}
{"id": "C90", "title": "Shutting down waits for connections, loses nothing it promised, and may never finish", "statement": "After Manager::stop() the I/O thread leaves its loop only when every connection is closed (or terminate() is called). If it leaves without terminate(), then for every connection ever accepted either everything handed to send() up to and including the first final record has been given to the kernel, or the peer left, or a read or write on that connection failed. Once stop() was called and no connection is open, the I/O thread always can go on and has ended after a number of its steps bounded by the records queued and sent. The documented claim that stop() completes is false: if the final record of one request closes a connection on which another request has begun, that request stays in the map, and the handler threads never return unless terminate() is called or the application pushes a message.", "quantifier": "all reachable states of the whole server (any number of threads, connections, requests, messages, any interleaving, any network behaviour), all applications, and all continuations", "why_tests_cant": "Shutdown races depend on the interleaving of signal, handler threads, I/O thread and network; the claim ranges over all of them, and that a thread never ends is a statement about infinitely many continuations.", "anchors": ["src/transceiver.cpp:75-98", "src/manager.cpp:60-74", "src/manager.cpp:254-333", "src/sockets.cpp:568-618", "include/fastcgi++/sockets.hpp:385-388"]}
{"id": "C91", "title": "Http::atoi gives the number a text begins with", "statement": "Http::atoi on a text [start,end) anywhere in memory returns the integer given by the optional minus sign and the digits the text begins with (0 if there are none), for every integer type in which the magnitude of that number is below the type's largest power of two, provided one character behind the text can be read; if a non-digit follows the digits within the text, nothing behind the text matters. Numbers of larger magnitude have undefined behaviour. Refuted: that the text needs nothing behind it (a text that ends in digits is always read one character too far), and that the least value of the type can be read.", "quantifier": "all texts, all memory before and behind them, all integer widths", "why_tests_cant": "The inputs are all texts of any length in any memory; a read one past the end or a signed overflow usually shows no effect in a test.", "anchors": ["src/http.cpp:55-77", "include/fastcgi++/http.hpp:313-327"]}
{"id": "C92", "title": "What one connection can make the server hold", "statement": "At every moment of every execution, whatever the peers send and however the threads run, the memory kept for the record being read from a connection is at most 8+65535+255 bytes, and at most 65534 requests of a connection exist at a time. Parameters and waiting messages have no such bound: any number of PARAMS records is accepted before the body (maxPostSize is for the body alone), each adding to the environment, and the I/O thread goes on reading while a request is not being handled, so that its message queue grows as long as the peer sends.", "quantifier": "all executions of the server, all connections and byte sequences, any application; for the refutations every size", "why_tests_cant": "Memory bounds are about all states of all executions; a test observes a few of them and cannot show that no byte sequence does worse, nor that there is no bound at all.", "anchors": ["src/transceiver.cpp:134-191", "src/manager.cpp:335-418", "src/request.cpp:66-112", "include/fastcgi++/request.hpp:64-79"]}
{"id": "C93", "title": "Text of any script arrives as its characters and leaves as the same bytes", "statement": "For applications with wide characters: text sent in UTF-8 arrives as exactly its characters; a form whose names and values are in UTF-8, written in any way forms allow (escapes in either case, '+' or an escape for a space, other bytes escaped or not), arrives as exactly those names and values, and so does a multipart form, the contents of its files being the bytes sent; and a page that writes them back sends exactly the bytes of the UTF-8, whatever the records the body came in. For other bytes: what arrives is the text whose UTF-8 the bytes are but for at most three bytes at the end, or nothing is stored. Refuted for those: a name or value with one wrong byte arrives empty, a variable sent again with one keeps its earlier value, a text that ends within a character is accepted without it, and a library that lets them pass makes half of a surrogate pair a character.", "quantifier": "all Unicode texts, all spellings of a form, all byte sequences, all cuts into records", "why_tests_cant": "There are over a million characters and unboundedly many texts, spellings and cuts; a test tries a few.", "anchors": ["src/http.cpp:39-53", "src/http.cpp:714-767", "src/fcgistreambuf.cpp:36-88"]}
{"id": "C94", "title": "Query, cookies, path and header texts arrive as the visitor wrote them", "statement": "If the web server sends QUERY_STRING once and it is a form, however written (escapes in either case, '+' or an escape for a space, other bytes escaped or not), gets holds exactly its fields; likewise cookies for HTTP_COOKIE with '; ' between them. A PATH_INFO made of non-empty names without '%' and '+' arrives as exactly those names. With wide characters all of these and the header texts (host, origin, user agent, accepted types and character sets, authorization, referer, root, script name, URI) arrive as the characters whose UTF-8 was sent. Whatever the records, padding and uninitialised memory. Refuted: PATH_INFO, which is not encoded, is decoded like a form, so that the paths /a+b, '/a b' and /a%20b cannot be told apart; and with wide characters a variable whose name ends in part of a character replaces the variable named without it.", "quantifier": "all queries, cookies, paths and texts, all spellings, all cuts into records of whole pairs", "why_tests_cant": "The spellings of one query alone are unboundedly many, and so are the texts.", "anchors": ["src/http.cpp:169-330", "src/http.cpp:714-767", "src/http.cpp:39-53", "src/http.cpp:119-167"]}
{"id": "C95", "title": "Printing an address on a stream with a locale or number flags", "statement": "An address printed on a stream whose locale does not group digits and that has no showbase flag comes out as a standard text of that address: the one of C84, with upper case letters if the stream says so; so too after Request::setLocale with a name the system does not know. Whatever the locale and the flags, printing an IPv4-mapped address stays inside the 40 characters of the function's buffer. With a locale that groups digits by three (en_US, de_DE, fr_FR and most others) printing leaves that buffer exactly if the address is not IPv4-mapped and its plain text together with the number of its words of four hexadecimal digits is longer than 40 characters, and the text is unchanged if no word has four digits and it is not IPv4-mapped. It is not the case that a request can set its locale and print addresses: every such locale has an IPv6 address that overruns the buffer on the stack, every IPv4 address is printed as ::f,fff:a.b.c.d, which is no address, and showbase overruns the buffer too.", "quantifier": "for all addresses, all groupings, separators and number flags, all locale names and all sets of locales a system may have", "why_tests_cant": "a test prints a few addresses in the locale of the machine it runs on, mostly C; which locales are installed, what they group by and which of 2^128 addresses comes along decide whether memory is overwritten", "anchors": ["src/address.cpp:178-350", "src/request.cpp:275-303"]}
{"id": "C96", "title": "Reading an address from a stream whose locale groups digits", "statement": "Reading an address with operator>> from a stream of any locale does what it does in the locale C (C15, C54, C63) for every input in which the locale's separator of digits directly follows no digit; every standard text is then read as its address. It is not the case that the locale does not matter: with a separator '.', as in German or Spanish, no text containing a dot is ever accepted, so no IPv4 address is; and with ',' as in English the list 10.0.0.1,100.0.0.1 is read as 10.0.0.76, without an error.", "quantifier": "for all inputs, all separators other than digits and signs, all rules for the lengths of groups, and all contents of uninitialised memory", "why_tests_cant": "a test reads a few texts in the locale of the machine it runs on; that no text with a dot is accepted is a statement about all texts, and the wrong address appears only with certain neighbours in certain locales", "anchors": ["src/address.cpp:360-513"]}
{"id": "C97", "title": "The log from the first line on", "statement": "If the log stream can write the characters, each use of a logging macro that is to appear appears as one line: date, host, program, process id, level, text. Host and program names in UTF-8 are shown as their text; with warnings off, names that are no UTF-8 are shown as localhost and unknown. False otherwise: if the stream cannot write a character of either name (a program that never calls setlocale and a name outside ASCII) the first line is cut off there and nothing is logged ever again, errors included; the same from a logged text on that has such a character, such as the answer of a mail server; built with warnings, a name that is no UTF-8 is undefined behaviour before main is entered, because the warning prints the very name that does not exist yet; and so is logging from an initialiser that runs before those of log.cpp.", "quantifier": "all host and program names, characters the stream can write, levels the library is built with, values of suppress, and sequences of uses of the macros before and after log.cpp is initialised", "why_tests_cant": "tests run on one host under one program name, in one order of initialisation", "anchors": ["src/log.cpp:49-113", "include/fastcgi++/log.hpp:77-159"]}
{"id": "C98", "title": "Copying, moving and destroying HTTP client objects", "statement": "Whatever HTTP client objects are made of each other by copying, moving and queueing, and in whatever order they and the copies the Curler keeps are destroyed, no object ever uses a buffer or handle that was freed; each is freed once, as soon as no object shares it. What is made of an object shares its buffer, and the object itself goes on doing so. The object moved to can be written to and the one moved from no longer. As long as only objects are moved from that can be written to, at most one writes to a buffer. False otherwise: an object moved from a copy is a second writer beside the original; what is written to a copy is lost without a word; queueing a copy of the base class ends the process.", "quantifier": "all sequences of making, copying, moving, slicing, destroying, writing, reading and queueing, over any number of objects", "why_tests_cant": "tests make and drop objects in a few orders; use after free and double free need not show", "anchors": ["src/curl.cpp:36-59", "src/curl.cpp:88-96", "src/curl.cpp:163-167", "src/curl.cpp:207-214", "src/curler.cpp:182-188"]}
{"id": "C99", "title": "Socket objects as handles of connections", "statement": "However Socket objects are copied, moved, assigned, destroyed, used and closed, before and after the end of the group they come from, nothing touches the group after its end and no connection is closed twice. Every handle of a connection, copies and objects moved from included, says it is valid exactly as long as nobody closed the connection. Making, copying, moving, assigning and destroying handles closes nothing; closing through any handle closes that connection and no other. At the end of the group every connection there ever was has been closed and no handle is valid.", "quantifier": "all sequences of connections opened, handles given out, copied, moved, assigned, destroyed, used with or without errors and closed, and the end of the group anywhere", "why_tests_cant": "tests keep few handles and none beyond the end of the group; a dangling reference or a descriptor closed twice need not show", "anchors": ["include/fastcgi++/sockets.hpp:62-239", "src/sockets.cpp:44-138", "src/sockets.cpp:160-185", "src/sockets.cpp:605-608"]}
