# Formal model of fastcgi++ in Rocq/Coq 8.16.1

## Layout

* `properties.jsonl` – the English properties.
* `rocq/theories/Model/*.v` – the model: small total computable functions that
  follow the C++ function by function, each with a comment citing file and
  lines.  No proofs.
* `rocq/theories/Spec/*.v` – the vocabulary of the statements, written without
  the model's helpers: what the wire format, the text encoding, the abstract
  queue, an SMTP server or PostgreSQL's receive function is supposed to be.
  `Spec/*Cases.v` holds the data of examples and witnesses.
* `rocq/theories/Proofs/*.v` – lemmas.
* `rocq/theories/Props/*.v` – the property theorems only; each is closed by
  `exact lemma.` and followed by `Print Assumptions`, with an `Example` beside
  it that meets its hypotheses.  Theorem names begin with the property's id.
  `_refuted`: a witness that a stronger claim one might expect is false of the
  model.  `_partial`: part of a claim, the missing part being named beside it.
* `MANIFEST.json` maps properties to theorem names.
* `seeded/LOG.jsonl` logs the wrong-program experiments.

## Modelling conventions

* A byte is an `N` below 256 (`char` seen as unsigned).  Where signedness
  matters the definition says so.
* Undefined behaviour is an outcome of its own, never a default value: reads
  and writes outside an object, null dereference, signed overflow, use of an
  indeterminate value.  Bytes never written are `None` in `list (option N)`.
* Loops are structural recursion, or recursion on fuel with an explicit
  out-of-fuel outcome (`Spin`).  Theorems exclude it, or, for the findings of
  non-termination, show it to be the outcome for every fuel.
* Machine integers are unbounded `N`/`Z` unless wrap-around matters, in which
  case the wrap is written out.
* Kernel and third-party calls (`read`, `write`, `epoll`, libcurl, libpq,
  `codecvt`, random numbers, the clock, the user's request code) are inputs:
  every theorem quantifies over them.
* Concurrency: a transition system with one atomic step per lock operation or
  access to shared data; theorems are invariants over all reachable states for
  any number of threads and every interleaving.  Accesses are sequentially
  consistent.  "At rest" (`quiet`) states are those where no thread of the
  library can take a step by itself; liveness is stated as what holds there
  together with absence of deadlock.  C60 (handler threads) and C87 (the whole server) show that such a state is reached whatever the
  schedule.  Fairness and termination of the
  application's code are not stated.
* A witness of a refutation is an explicit schedule, run by computation.

## Trusted base

* Coq's kernel (with `vm_compute`).
* `Print Assumptions` lists nothing for any of the theorems in `Props/`: each
  says "Closed under the global context".  No axiom is used, of the standard
  library or other.
* That the definitions in `Model/` say what the cited lines of C++ do, for
  x86-64 with a 32 bit `wchar_t` and libstdc++ (`codecvt_utf8`, the
  `std::map` and `std::multimap` operations, which are modelled by their
  documented effect).
* That the definitions in `Spec/` say what the English says.

## What is modelled

| code | model | left out |
|------|-------|----------|
| `endian.hpp` | `Endian` | floating point specialisations beyond their bytes |
| `protocol.hpp`, `protocol.cpp` | `Protocol`, `RequestMap` | stream output of enumerators |
| `webstreambuf.*`, `fcgistreambuf.*` | `WebMaps`, `Streams` | formatting by `std::ostream` above the buffer: what reaches the buffer are block writes, single puts and flushes |
| `http.cpp`, `http.hpp` | `HttpCodec`, `WideText`, `Atof`, `Environment`, `Multipart`, `Sessions` | `from_bytes` follows libstdc++; iteration order of `others`; `std::time`, random device are inputs |
| `request.*` | `Request`, `Locale` | exceptions thrown by the application; logging |
| `manager.*` | `Manager`, `Management`, `Lifecycle` | installing signal handlers (their effect, a call of stop or terminate at any point, is modelled); `Manager` has the threads of one start, `Lifecycle` many starts with threads reduced to when they may end |
| `transceiver.*` | `Transceiver`, `Wake` | statistics |
| `sockets.*`, `poll.*` | `Sockets`, `SocketHandles` (copies of a Socket, and the end of the group), `Listen` (the system calls of listen, of connect by name and of the destructor over a file system of names), `Wake`, `PollList` | name resolution itself (its result is an input), statistics.  `Sockets`, `Wake` and `System` let the kernel report any ready descriptor of the poll list; the variant with `::poll` (`PollList`) always reports the first |
| locks and shared data of all threads | `Race` | what is computed: branches and loops go any way; atomic variables, the log, constructors, destructors, what is set only while no thread runs; a condition variable's wait is unlock and lock |
| `manager.cpp` setupSignals, signalHandler | `Signals` | SIGPIPE (nothing is done), the `instance` pointer while the manager is made or destroyed, the log |
| `block.*` | `Block` | |
| `address.*`; `Request::setLocale` | `Address`; `AddressLocale` (printing with any number format of the stream's locale and flags, `num_put` after libstdc++), `AddressRead` (reading, `num_get` after libstdc++) | white space and `widen` of the locale; `__verify_grouping` is an input |
| `chunkstreambuf.*` | `Chunks` | |
| `curl.*`, `curler.*` | `Curl`, `CurlObject`, `CurlShare` (who shares which buffer), `Curler` (threads interleaved at every access), `CurlerMulti` (poll list, time limits and messages of libcurl's multi interface; calls of other threads in one step), `Workers` | libcurl and what it does with its options (what it does in each call is an input); using an object while its transfer runs; how long a time limit is |
| `email.*`, `mailer.*` | `Mailer`, `Chunks`, `Workers` | the length of the wait before a retry |
| `sql/*`, `parameters.cpp`, `results.cpp`, `connection.cpp` | `Sql`, `SqlReuse`, `Connection`, `Workers` | libpq and the server; calendar conversions of `std::chrono`; a descriptor reported that is not in `m_connections` (connection.cpp 131-138) |
| all of the FastCGI path together | `System`; `Shutdown` adds the loop and the end of the I/O thread | several managers; starting again after the end (`start`) |
| `examples/helloworld.cpp`, `examples/echo.cpp` | `Examples` | formatting of numbers, times, narrow texts and addresses (inputs) |
| `examples/email.cpp` | `EmailExample` | how the date looks (input); `s_mailer.queue` is the result, what happens then is `Mailer` |
| `examples/timer.cpp` | `TimerExample` | `main`; two threads calling `stop` at a time; a callback returns (it only queues a message); the clock of `m_startTime` (wakeups are seconds since) |
| `examples/gnu.cpp` | `GnuExample` | `main`; the image (input, the file included is not in the repository); how dates and numbers look (input, also of a locale `setLocale` cannot set) |
| `examples/sql.cpp`; `Results_base` in `results.cpp` | `SqlExample` | `main`, `start`, `terminate`; the connection's answers (inputs, see `Connection`), clock, dice, how dates look (input); logging, error messages |
| `examples/sessions.cpp` | `SessionExample` | how a number and the expiry time look (inputs); which bytes the memory of an id holds before it is written is an input; calls of other threads may come between the calls on the shared sessions, but not between the last `expiration` and `size` |
| `log.*` | `Log`, `LogStart` | changing `logstream`, exceptions while a message is put together, the race on `suppress`, streams other than one written character by character; in the other models FAIL_LOG is an outcome (`Exit`, `Fail`) where it can be reached |

`System` composes `Transceiver`, `Manager`, `Request` and `Management` without
changing them: its steps are theirs, tied together where the code calls from
one into the other.  An execution of `System` ends where a handler's step is
undefined or does not end; C52_defined shows that this cannot happen on account
of a well-formed web request, C34 and C36 say when it does happen.

Line numbers cite the pinned commit in `/repo`.

## Assumptions made by particular theorems

* Codec of wide characters: a parameter `strict` covers both behaviours of
  `codecvt_utf8` for surrogates where it matters.
* `vts`/`junk` (Request, System): text conversion of the environment's wide
  strings and the content of memory never written; quantified over, the latter
  only having the right length.
* `address_of` (C26, C36, C52): the effect of `Address::assign` on texts that
  are followed by whatever is in memory; assumed to be right on standard texts
  other than `::a.b.c.d`, which C54 proves of the model and
  `C26_addresses_exist` shows to be satisfiable.
* `app_writes`: the application writes characters of its type.  `app_plain`
  (C25, C52): it does not override the functions called while the body arrives.
  C24 assumes that it does not alter the announced length or raw body itself.
* C14: exactness for a clock that does not go back; soundness for any clock.
* C64: one thread of the program calls start, join, resizeThreads and the destructor; stop and terminate come from anywhere.
* C69: `formats`, what the standard library makes of numbers, times and narrow texts are characters other than `<` and `>`, ASCII stays as it is; `C69_example` shows it to be satisfiable.
* C67: `init` was called; one thread of the program calls start, join and the destructor.
* C62: the application may call its callbacks from any thread at any time, also after the request is gone; the model has only connection and id in a callback, as the code does.
* C52, C59: `ev_ok`, the bytes that arrive are bytes; connections are not told
  apart by descriptors but by identity (C50 covers descriptors).

## Findings (refuted claims)

Each is a theorem with a concrete witness; the statement of the property in
`properties.jsonl` says what holds instead.

* `C15_reads_past_end_refuted` (C15_Address.v): Without a readable character behind the text, parsing may read beyond it: address.cpp 74 looks at [*end] after a trailing "::".
* `C17_half_closed_record_lost_refuted` (C17_Transceiver.v): The bare header is lost indeed: a complete record without content is read but not delivered.
* `C18_write_error_silent_refuted` (C17_Transceiver.v): The notification is missing when it is a write that finds the connection broken, and the partial input stays.
* `C26_straddling_refuted` (C26_Environment.v): And the rest of it, in the next record, may be taken for other variables: here the value of one variable forges REMOTE_USER.
* `C31_use_while_alive_refuted` (C28_Manager.v): There the claim fails.
* `C33_stop_ends_refuted` (C28_Manager.v): Where the last one was lost this fails: a thread sleeps forever.
* `C33_late_request_refuted` (C60_Rest.v): The handler threads leave when there is no request, though connections are still open. A request that then comes in on one of them is accepted and its messages queued, but whatever happens they are never handled, unless threads are started again.
* `C34_get_values_never_ends_refuted` (C34_Management.v): GET_VALUES: either the record starts with a complete pair and handling it never ends, or it does not and it is not answered at all.
* `C34_get_values_flood_refuted` (C34_Management.v): Meanwhile the answer to the first name is sent again in every round (so if the name is known without bound), and no other.
* `C34_reply_length_refuted` (C34_Management.v): No value reply is a well-formed record: it is two bytes longer than its header declares.
* `C35_quoted_boundary_refuted` (C35_Multipart.v): A client that quotes the boundary parameter, as it may (RFC 2046 5.1.1), has its whole form ignored: the quotes are taken for a part of the boundary.
* `C36_number_overflow_refuted` (C26_Environment.v): The conversions are not defined for every value: numbers that do not fit an [int] overflow ...
* `C36_number_past_end_refuted` (C26_Environment.v): ... and any number that ends where the record's memory ends (a record without padding) is read past the end.
* `C38_char_terminates_refuted` (C38_Chunks.v): So it does not end for all text.
* `C38_taken_destroyed_refuted` (C38_Chunks.v): Destroying the buffer after its body was taken is undefined behaviour.
* `C38_wide_content_refuted` (C38_Chunks.v): For other text this fails: what was converted before the bad character can be converted again.
* `C39_destroyed_refuted` (C39_Curl.v): Afterwards a narrow request cannot be destroyed: when the body has been read its destructor touches a chunk that is gone (unless the body ended exactly with a chunk).
* `C40_wide_refuted` (C39_Curl.v): A split character always ends the transfer with an error.
* `C40_bad_byte_refuted` (C39_Curl.v): A byte that is not UTF-8 loses the piece it is in without an error.
* `C40_late_length_refuted` (C39_Curl.v): A Content-Length after data (as a trailer may bring it) discards what was received, or makes the next data undefined behaviour.
* `C40_late_length_ub_refuted` (C39_Curl.v): 
* `C40_big_length_refuted` (C39_Curl.v): A Content-Length of 2 GiB or more throws an exception through libcurl.
* `C41_twice_refuted` (C41_Curler.v): One that is queued again before it is done makes the process fail.
* `C41_reuse_refuted` (C41_Curler.v): A request that is given a new callback and queued again by someone its callback has told may be done without that ever being reported: the callback is cleared after it has been called.
* `C42_idle_refuted` (C42_Mailer.v): Until there is a first email the thread never waits: it goes round for as long as one likes, each time examining a variable without a value...
* `C42_idle_undefined_refuted` (C42_Mailer.v): ...and has no defined behaviour when a line feed is there.
* `C42_blank_refuted` (C42_Mailer.v): A server that sends an empty line makes the behaviour undefined.
* `C42_hangup_refuted` (C42_Mailer.v): So may one that hangs up.
* `C42_half_line_refuted` (C42_Mailer.v): An email may be let go on the beginning of a line, its end never arriving.
* `C42_last_extension_refuted` (C42_Mailer.v): A server that names 8BITMIME last is taken for one that does not have it.
* `C42_long_greeting_refuted` (C42_Mailer.v): A greeting of several lines is refused.
* `C42_injection_refuted` (C42_Mailer.v): A line feed in an address makes a command of what follows.
* `C42_twice_refuted` (C42_Mailer.v): An email may be sent completely more than once.
* `C42_dropped_refuted` (C42_Mailer.v): An email without a recipient disappears.
* `C42_crlf_refuted` (C42_Mailer.v): Commands end with a line feed alone.
* `C43_rest_refuted` (C43_MailData.v): What comes behind the first line of a single dot is not data for the server but commands, whatever it is.
* `C43_dot_refuted` (C43_MailData.v): A dot at the beginning of a line is lost.
* `C43_smuggled_refuted` (C43_MailData.v): Part of a body is taken for a command.
* `C44_empty_bytea_refuted` (C44_Sql.v): Except for a BYTEA of no bytes, which goes as a null.
* `C44_numbers_overflow_refuted` (C44_Sql.v): An array whose encoding takes four gibibytes or more overruns its buffer.
* `C44_texts_overflow_refuted` (C44_Sql.v): 
* `C44_sized_refuted` (C44_Sql.v): An array made by its size lacks the length of its first element whatever is assigned to its elements.
* `C44_wide_refuted` (C44_Sql.v): A wide text with a character there is no UTF-8 for goes as an empty text, and an array of them ends in front of it.
* `C44_wide_array_refuted` (C44_Sql.v): 
* `C44_nulls_refuted` (C44_Sql.v): Of an array with a null the program gets nothing at all.
* `C44_address_refuted` (C44_Sql.v): An IPv4 address of the server goes back as an IPv6 address.
* `C44_time_refuted` (C44_Sql.v): 'infinity' is undefined to read, as times and as dates.
* `C44_date_refuted` (C44_Sql.v): 
* `C45_null_refuted` (C45_Sql.v): That verify returns zero does not make row() safe: with a null in a column of numbers, times, dates or arrays row() gives no value.
* `C46_stop_refuted` (C46_Connection.v): stop does not wait for the queries in flight: their callbacks are never called.
* `C46_failed_refuted` (C46_Connection.v): A query that cannot be sent is dropped, and the loop goes on with an iterator that is no longer valid.
* `C46_notice_refuted` (C46_Connection.v): Anything the server sends unasked ends the process.
* `C46_no_results_refuted` (C46_Connection.v): A query without a results object is undefined behaviour.
* `C46_again_refuted` (C46_Connection.v): A query put back keeps what it got on the lost connection, and its second answer is thrown away.
* `C46_reuse_refuted` (C46_Connection.v): A results object used again keeps the results of the first query.
* `C46_late_refuted` (C46_Connection.v): [queue] may return true when the thread has ended; the query stays there, and starting the thread again drops it.
* `C46_restart_refuted` (C46_Connection.v): 
* `C46_race_refuted` (C46_Connection.v): [queue] looks at the connections while the thread changes them, without a lock: both are possible in the same state and the answer depends on it.
* `C46_long_refuted` (C46_Connection.v): Of a query too long to be sent at once the rest goes only when the server says something: the thread does not wait for it to take more.
* `C47_long_language_refuted` (C47_Locale.v): A supported language of more than five characters is passed over.
* `C47_nul_refuted` (C47_Locale.v): A language with a NUL character makes the comparison run past the end of a shorter locale.
* `C48_listen_refuted` (C50_Sockets.v): So with three candidates of which only the third works it never ends.
* `C48_connect_refuted` (C50_Sockets.v): 
* `C49_undetermined_refuted` (C34_Management.v): So that every byte sent is determined is false of every record.
* `C50_size_refuted` (C50_Sockets.v): That the size counts the open connections is false: a refused one stays in the table and is counted...
* `C50_adopted_refuted` (C50_Sockets.v): ...and the next connection that is given that descriptor number is closed at once although everything works.
* `C51_signal_refuted` (C28_Manager.v): A signal handler that calls [stop] on a thread that holds the lock on the tasks deadlocks.
* `C52_reused_id_refuted` (C52_System.v): That every request gets there is false: the web server may use an id again as soon as it has the END_REQUEST for it (here [x0]). If that is before the finished request is gone, the record that begins the next one is lost on the old one, and the rest is ignored: nothing is ever called or answered, though all is quiet and the connection open.
* `C53_expiration_stale_refuted` (C14_Sessions.v): C53. Without a lookup it is not: for every keep-alive there is a history of one generate after which the session lives on while the cookie expiration lies in the past.
* `C54_compatible_form_refuted` (C15_Address.v): The full statement is false: "::1.2.3.4" denotes 12 zero bytes and the quad, but is taken for the IPv4-mapped address.
* `C58_listener_refuted` (C21_Wake.v): In that case they may stay in the list.
* `C61_long_refuted` (C61_Atof.v): With 324 or more digits behind the point the value of the next digit underflows to zero, which is taken to mean that there was no point yet: "1.000...0" gives 10.
* `C61_points_refuted` (C61_Atof.v): A second point does not end the number, as the documentation says it does: what follows is added. "1.5.5" gives 2.
* `C62_another_request_refuted` (C62_Callback.v): But if the request is gone and the web server uses its id again, another request gets the message: at once, before it knows what it was asked for, its [response] is called with it, and what it answers goes out.
* `C63_signs_refuted` (C63_Refusal.v): Signs and numbers of any size are taken in dotted quads.
* `C63_long_group_refuted` (C63_Refusal.v): Groups of more than four digits are taken, and lose the first ones.
* `C63_letters_refuted` (C63_Refusal.v): [assign] takes anything behind the first dot that has two more dots.
* `C63_indeterminate_refuted` (C63_Refusal.v): A quad behind too few groups without a gap is taken, and the bytes it does not give are those that happened to be there: indeterminate ones of a local variable, or those of the old address.
* `C64_unjoined_refuted` (C64_Lifecycle.v): Started again after a [stop] without [join] between, the manager looks started but has no thread, and gets none by any number of further starts and stops.
* `C64_early_join_refuted` (C64_Lifecycle.v): There [join] comes back at once.
* `C64_resize_ignored_refuted` (C64_Lifecycle.v): After [terminate] and [join] [resizeThreads] does nothing.
* `C64_resize_abort_refuted` (C64_Lifecycle.v): Between [stop] and [join] a smaller number aborts the program.
* `C64_cancel_refuted` (C64_Lifecycle.v): [start] on a manager that is still running undoes a [stop].
* `C65_escaped_refuted` (C65_Pages.v): Refuted without that proviso: an application waiting for a message with html escaping on gets the page escaped, its tags turned to text.
* `C66_fail_refuted` (C66_Log.v): REFUTED: FAIL_LOG exits ("log ... and then exit", log.hpp 84): with [suppress] set it returns.
* `C66_nested_refuted` (C66_Log.v): REFUTED: any expression can be logged: one that logs has its thread lock the mutex it holds.
* `C66_signal_refuted` (C66_Log.v): REFUTED: a signal stops the manager whatever the program is doing: the signal handler logs, too (manager.cpp 112-139).
* `C66_exit_refuted` (C66_Log.v): REFUTED: FAIL_LOG exits whatever destructors do: [std::exit] is called with the mutex held.
* `C67_early_refuted` (C67_Workers.v): REFUTED for the rest: on an object that is not static they examine a member without a value.
* `C67_forgotten_refuted` (C67_Workers.v): REFUTED: a [stop] is heeded: one before [start] is forgotten.
* `C67_unjoined_refuted` (C67_Workers.v): REFUTED: after [stop] [start] gets things going again: not without a [join] in between.
* `C67_late_refuted` (C67_Workers.v): REFUTED: what is queued gets done: HTTP client and mailer take it when the thread has left, and there it stays. [queue] does not tell.
* `C68_starved_refuted` (C68_Poll.v): REFUTED without this: as long as a descriptor registered earlier is ready at each poll, because its peer keeps sending, say, the later one is never told of.
* `C69_file_refuted` (C69_Examples.v): Refuted without that proviso: the content of an uploaded file is put into the page as it is.
* `C69_language_refuted` (C69_Examples.v): Refuted for texts that are not characters: a single byte above 127 as Accept-Language, widened as in the "C" locale, and the whole page is lost; only END_REQUEST is sent.
* `C70_put_refuted` (C70_SessionExample.v): Refuted where [operator<<] writes a single character by [put]: the id in the cookie is not escaped then, and an id with a ['+'] in its text does not come back.
* `C70_memory_refuted` (C70_SessionExample.v): Refuted that a visitor needs to know an id: an empty cookie leaves the id as the memory was, and if another visitor's id was there, the page shows that visitor's session.
* `C70_header_refuted` (C70_SessionExample.v): Refuted that the cookie cannot alter the header: only 20 characters of it matter, all of it is sent back, and URL encoding leaves line ends alone, so it can end the header early.
* `C71_message_refuted` (C71_EmailExample.v): Refuted for a form without a message: undefined behaviour (line 128 examines the wrong iterator).
* `C71_smuggled_refuted` (C71_EmailExample.v): Refuted that a visitor can only send one mail: a line of a single dot in the message ends it for the server, and what follows are commands.
* `C71_recipient_refuted` (C71_EmailExample.v): Refuted that "Email Queued!" means so: with an empty recipient the mailer passes the mail over (C42).
* `C72_equal_refuted` (C72_TimerExample.v): Refuted for equal wakeups: the second item is dropped; its callback is never called, so that the request never ends.
* `C73_stale_refuted` (C73_GnuExample.v): Refuted with a date alone: no tag counts as the tag of the first locale. A cache that has the French page and keeps no tags is told, for an English visitor, that it has not changed.
* `C73_script_refuted` (C73_GnuExample.v): Refuted that nothing of the request becomes markup: the script name is not escaped.
* `C74_null_refuted` (C74_SqlExample.v): Refuted for all rows the server may give: a null time passes every check and is undefined behaviour.
* `C74_late_refuted` (C74_SqlExample.v): So is a time of the year 2300, which is read well but has too many nanoseconds.
* `C75_left_over_refuted` (C75_Listen.v): "A failed listen leaves no file" is false: if ::listen fails the socket file stays, even when the group is destroyed.
* `C75_removes_refuted` (C75_Listen.v): "A failed listen removes nothing" is false, nor need what it removes be a socket.
* `C75_owner_alone_refuted` (C75_Listen.v): "The owner is set" is false if no group is given.
* `C75_unknown_owner_refuted` (C75_Listen.v): "An unknown owner makes it return false" is false.
* `C76_send_refuted` (C76_Race.v): Transceiver::transmit looks at m_sendBuffer while a handler sends.
* `C76_stop_refuted` (C76_Race.v): Manager_base::resizeThreads looks at m_stop while another thread stops.
* `C76_valid_refuted` (C76_Race.v): A handler asks whether a socket is valid while it is closed.
* `C76_listeners_refuted` (C76_Race.v): listen() adds a listener while the transceiver polls.
* `C76_curl_refuted` (C76_Race.v): Curler::stop sets m_waking while the curler's thread clears it.
* `C76_sql_queue_refuted` (C76_Race.v): The SQL thread looks at the queue while a query is queued.
* `C76_sql_connections_refuted` (C76_Race.v): The SQL thread adds a connection while queue() counts them.
* `C78_again_refuted` (C78_CurlObject.v): Without a reset: once a narrow body was sent, the next request is undefined behaviour (unless the body ended exactly with a chunk).
* `C78_headers_refuted` (C78_CurlObject.v): REFUTED: reset makes it as new. Headers given before are sent again ...
* `C78_encoding_refuted` (C78_CurlObject.v): ... and an encoding set before is used.
* `C78_verify_refuted` (C78_CurlObject.v): REFUTED: asking for verification gets it: between 7.28.1 and 7.65 libcurl leaves the check of the name off once it was off, before it never checks the name.
* `C78_url_refuted` (C78_CurlObject.v): REFUTED: a request goes to the address set last: one that cannot be converted leaves the one before.
* `C78_again_wide_refuted` (C78_CurlObject.v): REFUTED: a wide body can be sent again: the second request is a GET.
* `C78_length_refuted` (C78_CurlObject.v): 
* `C78_copy_refuted` (C78_CurlObject.v): REFUTED: a copy can do all but write. Queued through a copy, the original writes to memory that is gone; reset through a copy, it loses what it writes; setting an encoding on a copy is undefined.
* `C78_flush_refuted` (C78_CurlObject.v): REFUTED: a closed stream may be flushed, where flush looks at no state.
* `C79_tasks_refuted` (C79_Signals.v): REFUTED: signals are safe whenever they come. To a thread with one of the four locks, and no other of them, either signal can be the end.
* `C79_waking_refuted` (C79_Signals.v): 
* `C79_requests_refuted` (C79_Signals.v): 
* `C79_queue_refuted` (C79_Signals.v): 
* `C82_zero_refuted` (C82_CurlerProgress.v): With no concurrency nothing queued is ever started.
* `C83_hammer_refuted` (C83_MailerProgress.v): But a server that hangs up is connected to again at once, any number of times.
* `C83_rounds_refuted` (C83_MailerProgress.v): And with all handed over and the connection closed the thread goes round without waiting, whatever the network does.
* `C84_tie_refuted` (C84_AddressForm.v): Two longest runs of two words: the other one is left out.
* `C84_single_refuted` (C84_AddressForm.v): A single zero word is left out.
* `C84_shortest_refuted` (C84_AddressForm.v): ... and one may be shorter by one.
* `C85_others_refuted` (C85_TransmitProgress.v): One client that does not read stops what is sent to all others.
* `C85_spin_refuted` (C85_TransmitProgress.v): ... but while a client does not read it runs without end.
* `C86_null_refuted` (C86_SqlReuse.v): A parameter once set to null stays so, whatever is assigned to it.
* `C86_gone_refuted` (C86_SqlReuse.v): An array assigned to, or a text whose memory thereby changes, while the query is queued: memory is read that is gone.
* `C86_mixed_refuted` (C86_SqlReuse.v): A text that stays where it is goes with the length of the old one, that is cut off, or with a zero and the end of the old one.
* `C88_full_refuted` (C88_CurlerMulti.v): REFUTED: that the user hears of every request that is done. When as many as may run at a time are done as soon as they are started, nothing is ever called, nor is anything else queued ever started: only [terminate] (or a signal) gets the thread out of its wait.
* `C88_stop_refuted` (C88_CurlerMulti.v): REFUTED: that the thread ends after [stop] once nothing is queued or running.
* `C88_told_refuted` (C88_CurlerMulti.v): REFUTED: that libcurl is told only of sockets it knows, or of the time being up: whatever number was in memory can be what it is told.
* `C88_write_refuted` (C88_CurlerMulti.v): REFUTED: that a transfer goes on when its socket is as libcurl wants it: one waiting for a socket to be writable is not told when it is.
* `C89_starved_refuted` (C89_Fair.v): The number of messages cannot be left out: a thread stays with a request as long as messages for it come in. There is an execution that never ends, with one handler thread, in which that thread takes a message of one request in each round; the task of another request is the first all the time, its message was pushed and is never taken; and [terminate] was called, but the thread does not leave handler().
* `C90_join_refuted` (C90_Shutdown.v): The handler threads need not end, so [join] need not return: when the final record of one request closes a connection on which another request has begun, nobody tells the manager, and that request stays in [m_requests]. There is a state in which [stop] was called, every connection is closed, the I/O thread is gone and a handler thread waits; unless somebody calls [terminate] or the application itself pushes a message, no handler thread ever leaves handler().
* `C91_end_refuted` (C91_Atoi.v): The documentation says that the text needs no terminator and that conversion ends when [end] is reached. But [*start] is read before [start<end] is tested: a number at the end of memory, whatever it is, makes the read behind it.
* `C91_least_refuted` (C91_Atoi.v): The least numbers of [int] and [int64_t], though they are values of the type, have no meaning either: the digits are summed up before the sign is applied.
* `C92_params_refuted` (C92_Memory.v): What the parameters of a request make the server keep has no bound: [maxPostSize] is for the body alone, and the parameters may come in any number of records.
* `C92_queue_refuted` (C92_Memory.v): The I/O thread reads however far the handling of requests is behind: the queue of messages of one request has no bound.
* `C93_invalid_refuted` (C93_WideText.v): Refuted for other bytes: a single wrong byte and the whole name or value is empty, without the application being told.
* `C93_keeps_refuted` (C93_WideText.v): A variable sent twice keeps its first value when the second is no UTF-8.
* `C93_cut_refuted` (C93_WideText.v): Text that ends within a character is accepted without it.
* `C93_surrogate_refuted` (C93_WideText.v): With a lenient library half a surrogate pair arrives as a character.
* `C94_path_refuted` (C94_Visit.v): Refuted: that the path is what the web server says it is. PATH_INFO is not encoded (RFC 3875, 4.1.5), but is decoded, and as a form is: three different paths arrive as one.
* `C94_names_refuted` (C94_Visit.v): Refuted: that a variable has the value sent for it. With wide characters a variable whose name has part of a character at its end replaces the one named without it.
* `C95_overflow_refuted` (C95_AddressLocale.v): Refuted: that a request may set its locale and print addresses. For every locale with groups of three digits there is an IPv6 address that is written past the end of the buffer on the stack (address.cpp 192).
* `C95_ipv4_text_refuted` (C95_AddressLocale.v): Refuted: that an IPv4 address printed after setLocale is an address. Every one of them is printed as ::f,fff:a.b.c.d, which is no address text.
* `C95_showbase_refuted` (C95_AddressLocale.v): Refuted: that number flags of the stream do no harm. With [showbase] the buffer is left as well.
* `C96_dots_refuted` (C96_AddressRead.v): Refuted: that an IPv4 address can be read in any locale. Where digits are separated by dots, as in German or Spanish, no text with a dot is read.
* `C96_comma_refuted` (C96_AddressRead.v): Refuted: that what follows an address does not change it. In a list with commas, where commas separate thousands, another address is read.
* `C97_locale_refuted` (C97_LogStart.v): Refuted if the stream cannot write a character of either name, as in a program that never calls [setlocale]: the first line is cut off there, and nothing is ever logged again, errors included.
* `C97_text_refuted` (C97_LogStart.v): Refuted likewise if it cannot write a character of a text that is logged, such as what a mail server answered: that line is cut off and is the last.
* `C97_names_refuted` (C97_LogStart.v): Refuted with warnings on: a name that is no UTF-8 is undefined behaviour before main is entered, since the warning about it prints the name.
* `C97_order_refuted` (C97_LogStart.v): Refuted for initialisers of other objects: if one logs before those of log.cpp have run, that is undefined.
* `C98_two_writers_refuted` (C98_CurlShare.v): Refuted otherwise: moving from a copy makes a second.
* `C98_copy_refuted` (C98_CurlShare.v): Refuted that a copy is as good as what it was made of: what is written to a copy is lost, until it is moved from.
* `C98_base_refuted` (C98_CurlShare.v): Refuted likewise for a Curl_base: queueing one ends the process.

## Status per property

| id | property | status | theorems | note |
|----|----|----|----|----|
| C01 | Big-endian storage round trip | proved | 6 in C01_Endian.v | Stored bytes, reading, both round trips, signed and unsigned. |
| C02 | FastCGI name-value pairs decode exactly | proved | 1 in C02_Params.v | Both length forms, arbitrary surrounding memory. |
| C03 | FastCGI name-value parsing stays inside the record and refuses truncated pairs | proved | 4 in C02_Params.v | Memory safety, soundness of success, refusal iff no complete pair. |
| C04 | Record size is the least multiple of 8 that holds header and content | proved | 1 in C04_RecordSize.v |  |
| C05 | Byte output stream reaches the web server intact | proved | 1 in C05_Streams.v |  |
| C06 | Every stream record put on the wire is well formed | proved | 2 in C05_Streams.v |  |
| C07 | Wide output is exactly the UTF-8 of what was written | proved | 3 in C05_Streams.v |  |
| C08 | HTML and URL escaping is exact and leaves nothing dangerous | proved | 4 in C05_Streams.v |  |
| C09 | URL encoding followed by percent decoding is the identity | proved | 1 in C05_Streams.v |  |
| C10 | Percent decoding is total and never outgrows its input | proved | 1 in C10_Percent.v |  |
| C11 | URL-encoded forms and cookies decode to the pairs that were encoded | proved | 4 in C11_Forms.v | Total characterisation, round trip, and the merging of a field without '='. |
| C12 | Base64 round trip | proved | 2 in C12_Base64.v | Both directions and safety of decoding any text. |
| C13 | Session id text form identifies the session | proved | 3 in C12_Base64.v | Also: exactly which texts determine all 15 bytes. |
| C14 | Sessions live exactly keep-alive seconds after their last use | proved | 4 in C14_Sessions.v | Soundness for any clock; exactness for a clock that never goes back. Operations are atomic (one mutex). |
| C15 | Address text round trip | proved | 4 in C15_Address.v | Round trip through assign and through operator>> for all addresses, with one readable character after the text (C strings have it); without it see C15_reads_past_end_refuted. |
| C16 | Address masking and ordering | proved | 6 in C15_Address.v |  |
| C17 | Incoming records are reassembled whatever the network does | proved | 6 in C17_Transceiver.v | Full statement proved; C17_lost bounds what is lost at closing, C17_half_closed_record_lost_refuted shows that the bare header is lost (REFUTED beyond). |
| C18 | Connections do not contaminate each other's input | proved | 4 in C17_Transceiver.v | Full statement proved. REFUTED beyond: a connection closed because a write failed is not notified (C18_write_error_silent_refuted). |
| C19 | Outgoing records keep order and are never interleaved | proved | 3 in C17_Transceiver.v | Failure of a connection includes the peer closing its side: then records are dropped (C19_half_closed_dropped). |
| C20 | A connection is closed by this side only after its final record is completely written | proved | 3 in C17_Transceiver.v |  |
| C21 | Wake-ups of the I/O thread are never lost and never pile up | proved | 3 in C21_Wake.v | Model/Wake.v: every interleaving of the I/O thread with any number of callers of send, stop, terminate and wake. |
| C22 | Request identifiers order correctly and a connection's requests form a contiguous range | proved | 5 in C22_RequestId.v | std::map is modelled by its documented operations over the comparison. |
| C23 | A request ends exactly once and emits nothing afterwards | proved | 3 in C23_Request.v | For every message sequence and application; also the exact text of both streams and independence of batching. |
| C24 | POST data is bounded | proved | 3 in C23_Request.v | Bound in every state and call, plus both too-large endings. Assumes the application does not itself alter the announced length or raw body. |
| C25 | The request body the application sees is what the web server sent | proved | 4 in C23_Request.v | Every split; the body reaches inProcessor, the parser and the response; forms end to end. Malformed requests are C27. |
| C26 | Environment is what the PARAMS stream says when pairs do not straddle records | proved | 5 in C26_Environment.v | For every split at pair boundaries; pairs cut by a record are lost and a forged variable is exhibited. |
| C27 | Protocol violations end the request with an error | proved | 4 in C23_Request.v | Abort, disorder, unknown role, unknown content: exact calls, output and status in every reachable state. |
| C28 | A request is never handled by two threads at once | proved | 1 in C28_Manager.v | any number of threads, every interleaving of handlers, pushes, losses, signals |
| C29 | No message to a live request is stranded | proved | 3 in C28_Manager.v | the five places a pending message can be attended to are spelled out; plus: no state where all threads sleep with a task queued; at rest every queue of a live request is empty |
| C30 | Messages of one request are processed in arrival order, each once | proved | 1 in C28_Manager.v | equation between the history of pushes, of takes and the queue |
| C31 | Where a request object can be used after it is destroyed | proved | 3 in C28_Manager.v | The one place (manager.cpp 302-303) is characterised by C31_use_while_alive and shown to be reached by C31_use_while_alive_refuted, which REFUTES the claim that no removed request is used. |
| C32 | Losing a connection affects only that connection | proved | 5 in C28_Manager.v | removal of exactly the connection's requests not being handled, while other threads go on; witnesses for id 65535 and for the left-over request |
| C33 | Stopping waits for all requests and then terminates | proved | 6 in C28_Manager.v, C60_Rest.v | Full statement proved: leaving only when due, waking on terminate, all gone after terminate, all gone after stop unless the last request was lost. REFUTED beyond: the last request lost with its connection (C33_stop_ends_refuted), requests that come in after the threads have left (C33_late_request_refuted). |
| C34 | What management records are answered with | proved | 6 in C34_Management.v | Exact for every management record. REFUTED: that GET_VALUES is answered with finitely many well-formed records (C34_get_values_never_ends_refuted, C34_get_values_flood_refuted, C34_reply_length_refuted, which are part of the statement). |
| C35 | Multipart forms decode to the parts that were encoded | proved | 6 in C35_Multipart.v | Round trip for parts with names without quotes and content types without line ends, any bodies not containing the boundary, any boundary without quote, space and CR (boundary must not consist of dashes only). A quoted boundary parameter is not unquoted: C35_quoted_boundary_refuted. |
| C36 | CGI variables are classified and converted correctly | proved | 6 in C26_Environment.v | Exact conversions for all values they are defined for (var_ok); overflow and the read past a record without padding are proved undefined. |
| C37 | Byte block container behaves like a resizable array | proved | 2 in C37_Block.v | All histories of operations. |
| C38 | Chunked body buffer holds exactly what was written | proved | 10 in C38_Chunks.v | Full statement proved, with the exact condition under which writing ends (C38_char_ends, C38_char_stuck). REFUTED beyond: an escape across the end of a chunk spins for ever, destructor after data() is UB, wide text with an unencodable character stored twice. |
| C39 | HTTP client upload delivers the body exactly | proved | 4 in C39_Curl.v | Full statement proved. Exact for every body and every sequence of buffer sizes, narrow and wide (announced size, order, each byte once). REFUTED beyond the statement: the destructor of a narrow request whose body was read out accesses an empty list. |
| C40 | HTTP client response is reassembled exactly | proved | 7 in C39_Curl.v | Full statement proved. REFUTED beyond: split character aborts, bad byte loses the piece, late Content-Length discards data or is UB, Content-Length >= 2^31 throws. |
| C41 | HTTP client never exceeds its concurrency and completes each request once | proved | 12 in C41_Curler.v | Full statement proved. Proved for every interleaving at sequentially consistent accesses. REFUTED beyond the statement for requests that are used again: queued twice (process fails), re-armed from another thread told by the callback (completion not reported). libcurl, timeouts and the poll list are external. |
| C42 | Mail is not lost before the server accepts it | proved | 18 in C42_Mailer.v | Full statement proved. Proved for every execution: order and no loss, what letting go of an email implies, lines, protocol order, ending, delivery to a server that plays its part. REFUTED beyond the statement, with executions: the idle thread never waits and reads an indeterminate variable, empty line or hang-up undefined, unterminated reply believed, 8BITMIME last and multi-line greeting refused, command injection by addresses, sent more than once, dropped without recipient, bare LF. |
| C43 | Mail body arrives as written | proved | 4 in C43_MailData.v | Full statement proved. Exact condition proved: the body arrives just when no line begins with a dot. REFUTED beyond the statement for other bodies: no dot stuffing, so the message is damaged, cut short, or its rest taken for commands. |
| C44 | SQL parameters and fields carry their values | proved | 17 in C44_Sql.v | Proved for all values named, both directions, against a specification of PostgreSQL's send and receive functions. REFUTED beyond them: empty byte strings (data() of an empty vector is a null pointer with libstdc++), arrays of 4 GiB, arrays made by size, unencodable wide texts, arrays with nulls, IPv4 addresses sent back, infinite times. The server's own check of text encodings is not modelled. |
| C45 | SQL column verification accepts exactly the matching results | proved | 6 in C45_Sql.v | verify characterised exactly; row() proved for rows without nulls, and refuted (C45_null_refuted) for rows with nulls although verify returned 0. Columns are what PQftype and PQfsize say. |
| C46 | SQL queries are answered at most once and in order | proved | 18 in C46_Connection.v | Order, exclusiveness, accounting, single callbacks and absence of lost wake-ups proved for every interleaving. REFUTED in the respects named at the end of the statement. libpq and the server are inputs of the model. |
| C47 | Locale selection picks the client's first supported language | proved | 3 in C47_Locale.v | Exact characterisation; languages longer than five characters are skipped and NUL bytes overrun (refuted witnesses). |
| C48 | Which resolved addresses listening and connecting try | proved | 4 in C50_Sockets.v | Exact behaviour proved for every list of candidates and failure pattern. REFUTED: that listening ends, and that connecting tries all (C48_listen_refuted, C48_connect_refuted). |
| C49 | Which bytes sent are determined by the program | proved | 5 in C34_Management.v | Exact set of undetermined bytes for each kind of record sent. REFUTED: that there are none. |
| C50 | Socket registration is consistent | proved | 10 in C50_Sockets.v | For all histories and kernel answers. That the size counts only the open connections, and that a connection the kernel takes is always kept, are REFUTED by witnesses; the statement says what holds instead (C50_size, C50_adopted). |
| C51 | Request handling threads never deadlock | proved | 2 in C28_Manager.v | progress, also under a writer preferring lock; the two provisos are necessary: C51_signal_refuted and C31_use_while_alive_refuted |
| C52 | End to end: a request arrives at the application as the web server sent it | proved | 7 in C52_System.v | Proved for the whole-server model (transceiver, manager and requests composed): what a request is given and handles (C52_handled), the calls for a web server's request (C52_seen), no undefined step (C52_defined), arrival in full of every request that was begun (C52_completes), the fate of every BEGIN_REQUEST (C52_begun), arrival of the first request with an id (C52_arrives). C52_reused_id_refuted: ids used again can be lost. Executions end where a handler's step is undefined or does not end. |
| C53 | Session cookie expiration covers the session's life | proved | 2 in C14_Sessions.v | Proved as stated, right after a lookup. REFUTED in general (C53_expiration_stale_refuted). |
| C54 | Every standard address text is understood | proved | 3 in C15_Address.v | Proved for all standard texts except "::a.b.c.d"; REFUTED for those. |
| C55 | Management records are never taken from an empty queue | proved | 2 in C28_Manager.v | counting invariant between m_tasks, threads in flight and m_messages; order by history |
| C56 | A request begins only with a BEGIN_REQUEST record, once | proved | 2 in C28_Manager.v | history of creations against the objects |
| C57 | A completed request is removed | proved | 2 in C28_Manager.v | invariant and its consequence at rest |
| C58 | After stop the listening sockets are left alone | proved | 3 in C21_Wake.v | For every interleaving in which stop's two flags do not straddle the refresh of the listeners; with a straddling one the listeners stay in the poll list (REFUTED by witness C58_listener_refuted). No connection is taken in once accepting is off, in any case. |
| C59 | End to end: responses reach the web server whole, in order and not mixed up | proved | 4 in C52_System.v | Proved for the whole-server model: C59_wire, C59_whose, C59_response, C59_delivered. Bytes of a record that the code leaves undetermined are None on the wire (see C49). |
| C60 | Left to themselves the handler threads come to rest with nothing undone | proved | 4 in C60_Rest.v | Well-foundedness of the steps the code takes by itself (a lexicographic measure over all threads), idleness of the states at rest, and what idleness means for the queues. The hypotheses of C60_rest_is_idle are those of C51_no_deadlock; both are violated by real executions, which C51_signal_refuted and C32 exhibit. |
| C61 | Text to floating point conversion | proved | 6 in C61_Atof.v | All of the statement is proved, the error bound with IEEE arithmetic as in Coq's SpecFloat; REFUTED beyond it: C61_long_refuted, C61_points_refuted |
| C62 | Whom a message sent with a request's callback reaches | proved | 4 in C62_Callback.v | C62_same_id, C62_at_most_once, C62_arrives. REFUTED: that a message reaches only the request it was meant for (C62_another_request_refuted): a late message reaches another request with the id used again, which responds before its parameters have arrived. |
| C63 | Text that is not an address is refused | proved | 6 in C63_Refusal.v | Full statement proved. Proved: exact shape of what can be accepted, from a stream and from memory. REFUTED beyond the statement with respect to the standard's form: signs, long groups, letters behind the first dot in memory, indeterminate bytes after a quad behind too few groups. |
| C64 | Starting, stopping, joining, resizing and destroying a manager | proved | 13 in C64_Lifecycle.v | Full statement proved. Exact conditions proved for every sequence of calls. REFUTED beyond the statement in the respects named in the statement (unjoined restart, early join, ignored or aborting resize, stop undone by start). |
| C65 | A refused request gets exactly the page for the reason | proved | 8 in C65_Pages.v | The exact answer to every refused request; the proviso on escaping is part of the statement (C65_escaped_refuted shows it is needed). |
| C66 | The log is whole lines, none lost, and a failure ends it | proved | 11 in C66_Log.v | Exact behaviour proved; the four ways in which the documented behaviour fails are proved as refutations (suppressed FAIL_LOG, a message that logs, a signal while logging, a destructor that logs during exit). |
| C67 | Starting, stopping, joining and destroying HTTP client, SQL connection and mailer | proved | 11 in C67_Workers.v | Full statement proved. Exact conditions proved for every sequence of calls. REFUTED beyond the statement in the respects named in the statement (stop before start, unjoined restart, late work, uninitialised members). |
| C68 | The poll list on systems without epoll | proved | 6 in C68_Poll.v | All of the statement is proved; REFUTED without its last condition: fairness (C68_starved_refuted) |
| C69 | An application's page arrives whole: hello world and echo | proved | 6 in C69_Examples.v | Proved for every page program, request and environment. REFUTED: markup in the content of an uploaded file (C69_file_refuted), blank page after a language that is not ASCII (C69_language_refuted). How numbers, times and addresses are formatted is an input of the model. |
| C70 | The sessions example: a session belongs to whoever holds its cookie | proved | 7 in C70_SessionExample.v | Full statement proved for the library whose operator<< uses sputn; REFUTED beyond: ids unescaped by put, an empty cookie, line ends in the cookie (C70_put_refuted, C70_memory_refuted, C70_header_refuted). |
| C71 | The email example: one form, one mail | proved | 8 in C71_EmailExample.v | All of the statement is proved; REFUTED beyond it: no message field, a line of a single dot, an empty recipient (C71_message_refuted, C71_smuggled_refuted, C71_recipient_refuted) |
| C72 | The timer example: messages resume a request, one for each wakeup | proved | 8 in C72_TimerExample.v | All of the statement is proved; REFUTED for equal wakeups (C72_equal_refuted) |
| C73 | The gnu example: the page of the visitor's language, or that it has not changed | proved | 4 in C73_GnuExample.v | All of the statement is proved; REFUTED beyond it: C73_stale_refuted (a date without tag counts as tag 0), C73_script_refuted (script name not escaped) |
| C74 | The sql example: the visitor's row goes in, the table comes out | proved | 5 in C74_SqlExample.v | All of the statement is proved; REFUTED for other rows: C74_null_refuted, C74_late_refuted |
| C75 | Listening on a name: which files and descriptors come and go | proved | 12 in C75_Listen.v | listen by name, interface and default as sequences of system calls with kernel answers as input (file names as texts, one owner thread); left-over files, removal, owner alone and unknown owner REFUTED with witnesses |
| C76 | Which shared data is touched without its lock | proved | 10 in C76_Race.v | Races are sought over the control flow of all threads with every branch possible, so safety covers the code; each of the seven races has a schedule (C76_*_refuted). |
| C77 | No set of threads waits for each other's locks | proved | 2 in C77_Deadlock.v | Over the same model: waiting follows a fixed order of locks. |
| C78 | An HTTP client object used for several requests | proved | 13 in C78_CurlObject.v | Full statement proved; its refuted parts have witnesses, and C78_again_refuted holds for every narrow body that is read to its end and does not end with a chunk. C78_request assumes that composing the narrow request ended (C78_request_wide shows it for wide); read-callback offers below 2^32. C78_ignored is for narrow and for plain writing (with libstdc++ before 12 a flush is undefined, C78_flush_refuted). Using an object while its transfer runs is left out; libcurl's treatment of options is external. |
| C79 | Signals that stop or terminate: when they are safe | proved | 9 in C79_Signals.v | Full statement proved; the four witnesses are C79_*_refuted, that they last is C79_forever. Over the lock-level model of C76/C77 with handlers of signals put in front of the code of any thread. The log's locks, SIGPIPE (whose handler does nothing) and signals around construction and destruction of the manager are left out. |
| C80 | The SQL thread never spins, and what is queued gets done | proved | 5 in C80_Progress.v | All claims proved from the model of C46; the server's part is the predicate helpful, results objects are only needed for answers that have results. |
| C81 | Connecting by name | proved | 4 in C81_Connect.v | All claims proved; empty names (abstract addresses) are excluded. |
| C82 | The HTTP client's thread never spins, and what is queued gets done | proved | 5 in C82_CurlerProgress.v | Over the transition system of C41 (libcurl external: it decides which running requests it reports done). Steps of queue/stop/terminate in other threads count as things that come to the thread; for the liveness part they have finished. |
| C83 | With a mail server that does its part all mail is handed over | proved | 7 in C83_MailerProgress.v | Over the transition system of C42. The uninitialised variable of mailer.cpp 74 is taken not to hold a line feed (C42 refutes defined behaviour otherwise). That poll returns at once when the group holds no socket (sockets.cpp 469) is part of the model of poll; the length of the wait is not modelled. k > 12 is needed for 250-8BITMIME to fit. |
| C84 | The form in which an address is printed | proved | 9 in C84_AddressForm.v | Form of the printed text characterised (iff); RFC 5952 met exactly when stated; refuted in general by two witnesses; length at most one above any standard text. |
| C85 | Sending goes on while clients read | proved | 5 in C85_TransmitProgress.v | Progress of output and bound on the I/O thread's steps; stalling by one client and spinning shown by refutations. |
| C86 | A parameters object assigned to and used again | proved | 4 in C86_SqlReuse.v | Proved for every history; values within the ranges of C44. REFUTED beyond the statement: nulls are never undone, arrays and moved texts assigned while a query waits are read after being freed, a text assigned in place goes with the old length. The order of the accesses is modelled, not that reading and assigning at the same time is a data race. |
| C87 | The whole server goes on until all is handled, and answers | proved | 6 in C87_SystemRest.v | Over the model of the whole server (Model/System.v). That the I/O thread reads what has come in is a hypothesis of C87_answered (at poll, nothing unread on the connection), as are orderly (signals do not interrupt manager code, C32) and no_dangling (C31). |
| C88 | The HTTP client and libcurl: what is watched, told and heard of | proved | 10 in C88_CurlerMulti.v | Full statement proved (model CurlerMulti: libcurl's reaction to each call is an input). REFUTED beyond it: requests done as soon as started are not reported and block the queue for ever (C88_full_refuted), stop does not end the thread then (C88_stop_refuted), after a time-out libcurl is told an uninitialised socket (C88_told_refuted), writability is never watched (C88_write_refuted). |
| C89 | Tasks get their turn in order; what can keep a request waiting | proved | 4 in C89_Fair.v | Tasks are taken in the order queued (equation between queued, added, taken and left, every execution); steps of a handler thread bounded by the tasks and messages it takes and the times it is woken; hence a bound after which a task is taken. Refuted: turn independent of other requests' messages, terminate ends threads (infinite execution). Application code (between RProc and its return) counts as one step, as it is not modelled. |
| C90 | Shutting down waits for connections, loses nothing it promised, and may never finish | proved | 5 in C90_Shutdown.v | Leaving, what is written, the bound and that the thread can go on are proved; that stop completes is refuted with a request left over on a closed connection. |
| C91 | Http::atoi gives the number a text begins with | proved | 5 in C91_Atoi.v | Value, independence of what follows and overflow are proved for every width; reading past the end and the least value are refuted. |
| C92 | What one connection can make the server hold | proved | 4 in C92_Memory.v | Input buffer and number of requests bounded; parameters and message queue refuted (no bound). |
| C93 | Text of any script arrives as its characters and leaves as the same bytes | proved | 9 in C93_WideText.v | For char applications vecToString copies the bytes (C11, C40). The conversion follows libstdc++ (strict: rejects surrogates, lenient: does not); the theorems for UTF-8 hold for both. The warning in the log is the only trace of bytes that are not UTF-8. |
| C94 | Query, cookies, path and header texts arrive as the visitor wrote them | proved | 6 in C94_Visit.v | Pairs that straddle records are C26_straddling_refuted; numbers and addresses are C36. |
| C95 | Printing an address on a stream with a locale or number flags | proved | 8 in C95_AddressLocale.v | All parts: text without grouping, unknown locale, IPv4 stays inside the buffer, exact condition for leaving it with groups of three; refuted: printing after setLocale (buffer overrun for IPv6, ::f,fff:a.b.c.d for IPv4), showbase. |
| C96 | Reading an address from a stream whose locale groups digits | proved | 4 in C96_AddressRead.v | Same as in the locale C when the separator follows no digit, hence every standard text; refuted: dots as separators (no IPv4 text is read), commas (a neighbour changes the address). |
| C97 | The log from the first line on | proved | 5 in C97_LogStart.v | Exact for names in UTF-8 and for names with a byte no character starts with. REFUTED parts: C97_locale_refuted, C97_text_refuted, C97_names_refuted, C97_order_refuted, which are part of the statement. |
| C98 | Copying, moving and destroying HTTP client objects | proved | 9 in C98_CurlShare.v | REFUTED parts: C98_two_writers_refuted, C98_copy_refuted, C98_base_refuted, which are part of the statement. |
| C99 | Socket objects as handles of connections | proved | 8 in C99_SocketHandles.v | Holds in full. |
