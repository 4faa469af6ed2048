{"id": "C01", "title": "Parcel round trip of plain data", "statement": "Whatever sequence of plain values (bool, int8, int16, int32, int64, float, double, 8-bit strings, nullable UTF-16 strings, parcelables, byte arrays, raw bytes of a known 4-aligned size) is appended with the gbinder_writer_append_* calls, reading the produced bytes with the matching gbinder_reader_read_* calls in the same order succeeds, yields exactly the appended values, and ends with the reader at the end of the data.", "quantifier": "every finite sequence of typed values with every value in the range of its C type and every string/array content, total size below 2^31", "why_tests_cant": "The set of sequences and string contents is infinite; alignment and padding bugs depend on the combination of neighbouring lengths.", "anchors": ["src/gbinder_writer.c: gbinder_writer_data_append_*", "src/gbinder_reader.c: gbinder_reader_read_*"]}
{"id": "C02", "title": "Readers never touch memory outside the received data", "statement": "For any received bytes (a peer controls them) and any sequence of gbinder_reader_read_* calls on plain data, every byte that is accessed lies inside the received buffer and the read position never passes its end.", "quantifier": "every byte string, every sequence of read calls", "why_tests_cant": "A malicious peer chooses lengths; tests only try a few malformed lengths.", "anchors": ["src/gbinder_reader.c: gbinder_reader_can_read", "src/gbinder_reader.c: gbinder_reader_read_byte_array", "src/gbinder_reader.c: gbinder_reader_read_nullable_string16_utf16", "src/gbinder_reader.c: gbinder_reader_read_string8", "src/gbinder_reader.c: gbinder_reader_read_parcelable"]}
{"id": "C03", "title": "Read position accounting", "statement": "After any sequence of read calls bytes_read plus bytes_remaining equals the number of bytes given to the reader, bytes_read never decreases, at_end is true exactly when nothing remains, and a failed fixed-size read leaves the position where it was.", "quantifier": "every byte string, every sequence of read calls that stays inside the data", "why_tests_cant": "It is an invariant over call histories of arbitrary length.", "anchors": ["src/gbinder_reader.c: gbinder_reader_bytes_read", "src/gbinder_reader.c: gbinder_reader_bytes_remaining", "src/gbinder_reader.c: gbinder_reader_at_end"]}
{"id": "C04", "title": "Writer output stays 4-byte aligned and only grows", "statement": "Every append call leaves the previously written bytes unchanged (append-only), and as long as raw appends are multiples of four bytes the length of the data is always a multiple of four, so every item starts on a 4-byte boundary.", "quantifier": "every sequence of append calls with every argument", "why_tests_cant": "Depends on every combination of lengths modulo four.", "anchors": ["src/gbinder_writer.c: gbinder_writer_data_append_padded", "src/gbinder_writer.c: gbinder_writer_append_string8_len", "src/gbinder_writer.c: gbinder_writer_append_string16_len", "src/gbinder_writer.c: gbinder_writer_append_byte_array"]}
{"id": "C05", "title": "overwrite_int32 replaces exactly four bytes", "statement": "gbinder_writer_overwrite_int32(offset, value) with offset+4 within the written data changes exactly the four bytes at offset to the little-endian value and nothing else; with any other offset it changes nothing. A number which is filled in later, at the place which gbinder_writer_bytes_written reported before something was appended there, gives the same message as if it had been appended right away.", "quantifier": "every written content, every offset in the range of gsize, every value", "why_tests_cant": "The boundary behaviour near SIZE_MAX (wrap-around) is not reached by tests.", "anchors": ["src/gbinder_writer.c: gbinder_writer_overwrite_int32", "src/gbinder_writer.c: gbinder_writer_bytes_written"]}
{"id": "C06", "title": "UTF-8/UTF-16 strings survive", "statement": "A valid Unicode string appended with gbinder_writer_append_string16 is read back by gbinder_reader_read_string16 as the identical UTF-8 string, including characters outside the BMP, the empty string and NULL.", "quantifier": "every sequence of Unicode scalar values without NUL", "why_tests_cant": "1.1 million code points and unbounded lengths; surrogate-pair edge cases.", "anchors": ["src/gbinder_writer.c: gbinder_writer_data_append_string16_len", "src/gbinder_writer.c: gbinder_writer_data_append_string16_utf16", "src/gbinder_reader.c: gbinder_reader_read_nullable_string16", "src/gbinder_reader.c: gbinder_reader_read_string16_utf16"]}
{"id": "C07", "title": "Object offsets describe the objects that were written", "statement": "After any sequence of append calls the offsets handed to the driver are strictly increasing, one per appended object, each points at the first byte of that object inside the data, and objects do not overlap each other.", "quantifier": "every sequence of append calls mixing plain data and objects, both 32-bit and 64-bit drivers", "why_tests_cant": "The kernel rejects or mistranslates a transaction when a single offset is wrong; combinations are unbounded.", "anchors": ["src/gbinder_writer.c: gbinder_writer_data_record_offset", "src/gbinder_writer.c: gbinder_writer_data_append_fd", "src/gbinder_writer.c: gbinder_writer_data_append_buffer_object", "src/gbinder_writer.c: gbinder_writer_data_append_remote_object"]}
{"id": "C08", "title": "Scatter-gather size equals what the kernel needs", "statement": "The extra buffers size passed with the transaction equals the sum, over the buffer objects in the data, of their lengths rounded up to eight bytes, so the kernel never runs out of space when copying the buffers.", "quantifier": "every sequence of append calls including nested HIDL types", "why_tests_cant": "Off-by-padding errors only show for particular combinations of sizes.", "anchors": ["src/gbinder_writer.c: gbinder_writer_data_append_buffer_object", "src/gbinder_writer.c: gbinder_writer_data_buffers_size", "src/gbinder_io.c: encode_buffer_object"]}
{"id": "C09", "title": "HIDL parent links are valid", "statement": "Every nested buffer produced for HIDL strings, vectors, string vectors and nested structures refers to a parent object that precedes it in the same data, and the 8-byte pointer slot named by its parent offset lies inside that parent and holds the nested buffer's address.", "quantifier": "every HIDL value of every size and nesting handled by the writer", "why_tests_cant": "Nesting depth and element counts are unbounded.", "anchors": ["src/gbinder_writer.c: gbinder_writer_data_append_hidl_vec", "src/gbinder_writer.c: gbinder_writer_data_append_hidl_string", "src/gbinder_writer.c: gbinder_writer_data_append_hidl_string_vec", "src/gbinder_writer.c: gbinder_writer_data_append_fields", "src/gbinder_writer.c: gbinder_writer_append_struct_vec"]}
{"id": "C10", "title": "HIDL values round trip through the kernel", "statement": "A HIDL string, hidl_vec or vector of HIDL strings appended by one process and translated by the binder driver is read by the receiver as the same value, and the reader is positioned right after it so that following items are read correctly.", "quantifier": "every string content, element count and size; any surrounding items", "why_tests_cant": "Unbounded contents; involves the kernel's pointer translation, which unit tests fake.", "anchors": ["src/gbinder_writer.c: gbinder_writer_append_hidl_string", "src/gbinder_writer.c: gbinder_writer_append_hidl_vec", "src/gbinder_writer.c: gbinder_writer_append_hidl_string_vec", "src/gbinder_reader.c: gbinder_reader_read_hidl_string_c", "src/gbinder_reader.c: gbinder_reader_read_hidl_vec", "src/gbinder_reader.c: gbinder_reader_read_hidl_string_vec"]}
{"id": "C11", "title": "Object references round trip", "statement": "A remote object, file descriptor or local object appended to a request occupies as many bytes as the reading side consumes and denotes the same object, for each RPC protocol, so that data following an object is read correctly.", "quantifier": "every handle/descriptor, every protocol (aidl, aidl2, aidl3, hidl), 32 and 64 bit layouts", "why_tests_cant": "Protocol-dependent trailing bytes make writer and reader layouts drift apart for some combinations.", "anchors": ["src/gbinder_io.c: encode_local_object", "src/gbinder_io.c: encode_remote_object", "src/gbinder_io.c: decode_binder_object", "src/gbinder_io.c: encode_fd_object", "src/gbinder_io.c: decode_fd_object", "src/gbinder_reader.c: gbinder_reader_read_nullable_object"]}
{"id": "C12", "title": "NULL object is readable", "statement": "Appending a NULL local object produces data from which gbinder_reader_read_nullable_object reads a NULL object successfully and continues with the following item.", "quantifier": "every protocol, every position in the data", "why_tests_cant": "Needs the interplay of offsets list, writer and reader.", "anchors": ["src/gbinder_writer.c: gbinder_writer_data_append_local_object", "src/gbinder_reader.c: gbinder_reader_can_read_object", "src/gbinder_reader.c: gbinder_reader_read_nullable_object"]}
{"id": "C13", "title": "Received object table is validated", "statement": "Whatever offsets array accompanies an incoming transaction, the object pointers made available to readers are increasing and every referenced object header lies completely inside the received data; otherwise none are made available.", "quantifier": "every offsets array, every data size, 32 and 64 bit layouts", "why_tests_cant": "Offsets are 64-bit numbers; wrap-around cases are never tested.", "anchors": ["src/gbinder_io.c: decode_transaction_data"]}
{"id": "C14", "title": "Transaction header round trip", "statement": "Encoding a transaction (handle, code, flags, payload, offsets) for the kernel and decoding the same structure on reception yields the same code, flags, payload size and offsets for both pointer sizes, and the one-way flag is set exactly when requested.", "quantifier": "every handle, code, flags, payload size and offsets count", "why_tests_cant": "Field widths differ between the 32 and 64 bit layouts over the full 32-bit ranges.", "anchors": ["src/gbinder_io.c: encode_transaction", "src/gbinder_io.c: encode_transaction_sg", "src/gbinder_io.c: decode_transaction_data", "src/gbinder_io.c: fill_transaction_data"]}
{"id": "C15", "title": "Copying received contents preserves them", "statement": "Copying the contents of a received request or reply into an outgoing one (forwarding) preserves all bytes outside converted objects, keeps every object at the same position relative to surrounding data, and produces offsets and buffer sizes that describe the copy.", "quantifier": "every well-formed buffer with any number of objects of any type, any starting offset between objects", "why_tests_cant": "Interleavings of data and objects are unbounded.", "anchors": ["src/gbinder_writer.c: gbinder_writer_data_set_contents", "src/gbinder_writer.c: gbinder_writer_data_append_contents", "src/gbinder_local_request.c: gbinder_local_request_append_contents"]}
{"id": "C16", "title": "RPC header round trip", "statement": "For each RPC protocol the interface name placed by write_rpc_header is what read_rpc_header recovers for any user transaction code, and the reader is then positioned exactly at the first byte of the payload.", "quantifier": "every protocol, interface name, payload and transaction code", "why_tests_cant": "Interface names have arbitrary length; payload position depends on padding.", "anchors": ["src/gbinder_rpc_protocol.c: gbinder_rpc_protocol_*_write_rpc_header", "src/gbinder_rpc_protocol.c: gbinder_rpc_protocol_*_read_rpc_header", "src/gbinder_remote_request.c: gbinder_remote_request_set_data"]}
{"id": "C17", "title": "Protocol and service manager selection", "statement": "The RPC protocol (and service manager kind) used for a device is the one configured for exactly that device, else the built-in choice for that device (aidl for /dev/binder, hidl for /dev/hwbinder), else the configured Default, else aidl, no matter what has been looked up before. Protocol names are compared case-insensitively. Unknown values count as not configured.", "quantifier": "every configuration, device name and history of lookups", "why_tests_cant": "Configurations are unbounded; caching may make the result order dependent.", "anchors": ["src/gbinder_rpc_protocol.c: gbinder_rpc_protocol_for_device", "src/gbinder_rpc_protocol.c: gbinder_rpc_protocol_load_config", "src/gbinder_servicemanager.c: gbinder_servicemanager_new2"]}
{"id": "C18", "title": "Configuration precedence", "statement": "An explicit setting always wins over a setting derived from the ApiLevel preset, a later file in the override directory wins over earlier ones and over the main file, and the preset applied is the one for the highest level not above the configured ApiLevel.", "quantifier": "every set of configuration files and contents, every ApiLevel", "why_tests_cant": "Combinatorial space of files, groups and keys.", "anchors": ["src/gbinder_config.c: gbinder_config_load_files", "src/gbinder_config.c: gbinder_config_apply_presets", "src/gbinder_config.c: gbinder_config_load"]}
{"id": "C19", "title": "FMQ is a FIFO", "statement": "A synchronized message queue delivers exactly the bytes written, in order, without loss or duplication: any successful read returns the oldest unread items, a write succeeds exactly when there is enough free space and a read exactly when enough items are available.", "quantifier": "every queue capacity and item size, every interleaving of reads and writes of any sizes, including ring wrap-around", "why_tests_cant": "Histories and wrap positions are unbounded.", "anchors": ["src/gbinder_fmq.c: gbinder_fmq_begin_read", "src/gbinder_fmq.c: gbinder_fmq_begin_write", "src/gbinder_fmq.c: gbinder_fmq_end_read", "src/gbinder_fmq.c: gbinder_fmq_end_write", "src/gbinder_fmq.c: gbinder_fmq_read", "src/gbinder_fmq.c: gbinder_fmq_write"]}
{"id": "C20", "title": "FMQ is safe for one reader and one writer running concurrently", "statement": "With one writer process and one reader process sharing a synchronized queue, under every interleaving of their individual loads, copies and stores the reader only ever sees fully written data in FIFO order and the writer never overwrites unread data.", "quantifier": "every interleaving of atomic steps, every sequence of operations on each side", "why_tests_cant": "Tests run one schedule.", "anchors": ["src/gbinder_fmq.c: gbinder_fmq_available_to_read_bytes", "src/gbinder_fmq.c: gbinder_fmq_available_to_write_bytes", "src/gbinder_fmq.c: gbinder_fmq_end_read", "src/gbinder_fmq.c: gbinder_fmq_end_write"]}
{"id": "C21", "title": "Unsynchronized FMQ", "statement": "On an unsynchronized queue a write of up to the capacity always succeeds and overwrites the oldest data, and a reader that was overrun discovers it and never returns a mixture misaligned with respect to the ring positions.", "quantifier": "every history of reads and writes", "why_tests_cant": "Overrun conditions depend on relative 64-bit counters.", "anchors": ["src/gbinder_fmq.c: gbinder_fmq_begin_write", "src/gbinder_fmq.c: gbinder_fmq_begin_read", "src/gbinder_fmq.c: gbinder_fmq_available_to_write_bytes"]}
{"id": "C22", "title": "FMQ shared memory layout", "statement": "The grantor descriptors created for a new queue describe regions that are 8-byte aligned, pairwise disjoint, and inside the shared memory of the computed size, with the ring exactly as large as the requested number of items.", "quantifier": "every number of items, item size, queue type and flags", "why_tests_cant": "Size arithmetic is done in 32 bits; overflow cases need astronomically large tests.", "anchors": ["src/gbinder_fmq.c: gbinder_fmq_create_grantors", "src/gbinder_fmq.c: gbinder_fmq_new", "src/gbinder_fmq.c: gbinder_fmq_get_grantor_descriptor"]}
{"id": "C23", "title": "FMQ event flag wake-ups", "statement": "Bits passed to gbinder_fmq_wake are delivered to a waiter whose mask contains them: a wait returns success only with a non-empty subset of its mask that was set, each set bit is consumed by at most one wait, and a wake between the waiter's check and its sleep is not lost.", "quantifier": "every interleaving of wakers and waiters", "why_tests_cant": "Lost wake-ups depend on schedules tests cannot force.", "anchors": ["src/gbinder_fmq.c: gbinder_fmq_wait_timeout", "src/gbinder_fmq.c: gbinder_fmq_wake"]}
{"id": "C24", "title": "Driver command stream framing", "statement": "However the kernel splits the stream of commands over reads, every complete command is handled exactly once, in order, with its own payload, and a partially received command is handled when the rest arrives.", "quantifier": "every sequence of commands and every way to split it into reads that fit the buffer", "why_tests_cant": "The number of splits is exponential.", "anchors": ["src/gbinder_driver.c: gbinder_driver_next_command", "src/gbinder_driver.c: gbinder_driver_compact_read_buf", "src/gbinder_driver.c: gbinder_driver_handle_commands", "src/gbinder_driver.c: gbinder_driver_txstatus", "src/gbinder_io.c: write_read"]}
{"id": "C25", "title": "One reply per two-way transaction", "statement": "Every incoming two-way transaction is answered by exactly one reply (data, or the status code when the handler returns no reply), an incoming one-way transaction is never answered, and replies to nested transactions are sent before those of the enclosing ones.", "quantifier": "every sequence of incoming commands, arbitrarily nested, and all handler results", "why_tests_cant": "Nesting depth and handler behaviour are unbounded.", "anchors": ["src/gbinder_driver.c: gbinder_driver_handle_transaction", "src/gbinder_driver.c: gbinder_driver_reply_status", "src/gbinder_driver.c: gbinder_driver_reply_data"]}
{"id": "C26", "title": "Kernel buffers are returned exactly once", "statement": "Every buffer the kernel hands over with a transaction or reply is returned with exactly one BC_FREE_BUFFER, and never while a request, reply or an object being acquired from it still refers to it.", "quantifier": "every sequence of incoming commands and every order of releasing references", "why_tests_cant": "Double frees and leaks depend on reference histories.", "anchors": ["src/gbinder_driver.c: gbinder_driver_free_buffer", "src/gbinder_buffer.c: gbinder_buffer_contents_unref", "src/gbinder_buffer.c: gbinder_buffer_contents_free", "src/gbinder_driver.c: gbinder_driver_handle_transaction", "src/gbinder_driver.c: gbinder_driver_txstatus"]}
{"id": "C27", "title": "Transaction status reporting", "statement": "A synchronous transaction reports DEAD_OBJECT or FAILED only when the driver said so, success only when a reply (or completion, for one-way) was received, and a status code carried in a reply is passed through except that values colliding with driver errors are replaced.", "quantifier": "every sequence of driver commands delivered while waiting", "why_tests_cant": "Any other command may be interleaved while waiting.", "anchors": ["src/gbinder_driver.c: gbinder_driver_txstatus", "src/gbinder_driver.c: gbinder_driver_transact"]}
{"id": "C28", "title": "Reference releases wait for the command queue", "statement": "Kernel requests to release references to a local object take effect only after all commands already received in the same batch have been handled, so a command later in the batch that refers to the object still finds it; each request takes effect exactly once.", "quantifier": "every batch of driver commands", "why_tests_cant": "Order-dependent use-after-free.", "anchors": ["src/gbinder_driver.c: gbinder_driver_handle_command", "src/gbinder_driver.c: gbinder_driver_context_cleanup", "src/gbinder_cleanup.c: gbinder_cleanup_free"]}
{"id": "C29", "title": "Asynchronous call callbacks", "statement": "For each asynchronous transaction the reply callback is invoked at most once, on the event loop, after the transaction was performed and never after cancellation; the destroy callback is invoked exactly once, after the reply callback; nothing else is invoked. At process exit the library waits until the worker threads have performed everything which was not cancelled, and nothing is performed afterwards.", "quantifier": "every interleaving of event loop and worker threads, every number of transactions and cancellations, including from callbacks", "why_tests_cant": "Schedules.", "anchors": ["src/gbinder_ipc.c: gbinder_ipc_transact", "src/gbinder_ipc.c: gbinder_ipc_transact_custom", "src/gbinder_ipc.c: gbinder_ipc_tx_proc", "src/gbinder_ipc.c: gbinder_ipc_tx_done", "src/gbinder_ipc.c: gbinder_ipc_tx_free", "src/gbinder_ipc.c: gbinder_ipc_cancel"]}
{"id": "C30", "title": "Transaction ids", "statement": "The id returned for an asynchronous transaction is non-zero and differs from the id of every transaction still in progress, so cancelling an id never cancels another transaction.", "quantifier": "every history of started and finished transactions, including 32-bit counter wrap-around", "why_tests_cant": "Needs more than four billion transactions to test.", "anchors": ["src/gbinder_ipc.c: gbinder_ipc_tx_new_id", "src/gbinder_ipc.c: gbinder_ipc_tx_get_id", "src/gbinder_ipc.c: gbinder_ipc_cancel"]}
{"id": "C31", "title": "Blocked requests complete with the given result", "statement": "If a handler blocks a request and it is completed later (or from inside the handler), the caller receives exactly the reply and status given to the first completion, once; without blocking it receives the handler's result. Further completions have no effect.", "quantifier": "every interleaving of looper thread and event loop; every sequence of block/complete calls by the handler and later", "why_tests_cant": "Schedules and call orders.", "anchors": ["src/gbinder_ipc.c: gbinder_remote_request_block", "src/gbinder_ipc.c: gbinder_remote_request_complete", "src/gbinder_ipc.c: gbinder_ipc_looper_tx_handle", "src/gbinder_ipc.c: gbinder_ipc_looper_transact"]}
{"id": "C32", "title": "Dropping a blocked request completes it", "statement": "If the application drops its last reference to a blocked request without completing it, the caller's transaction is finished with a cancellation status.", "quantifier": "every order of reference releases", "why_tests_cant": "Tests do not cover forgetting a request while a looper is waiting.", "anchors": ["src/gbinder_remote_request.c: gbinder_remote_request_free", "src/gbinder_ipc.c: gbinder_ipc_looper_tx_handle", "src/gbinder_driver.c: gbinder_driver_handle_transaction"]}
{"id": "C33", "title": "One remote object per handle", "statement": "As long as a live remote object for a handle is referenced, asking for the same handle yields the same object; after its death and reuse of the handle by the kernel, the new object is found until it is released.", "quantifier": "every history of lookups, references, deaths and handle reuse", "why_tests_cant": "Order of releases across generations of a handle.", "anchors": ["src/gbinder_ipc.c: gbinder_ipc_priv_get_remote_object", "src/gbinder_ipc.c: gbinder_ipc_invalidate_remote_handle", "src/gbinder_remote_object.c: gbinder_remote_object_handle_death_on_main_thread", "src/gbinder_remote_object.c: gbinder_remote_object_finalize"]}
{"id": "C34", "title": "Death is reported once and references are balanced", "statement": "A remote object emits its death signal at most once per life, never while the driver considers it alive; and over its whole life acquire and release commands for its handle are balanced, as are requests for and clearings of death notifications.", "quantifier": "every history of death notifications, reanimations, suicides and final release", "why_tests_cant": "Histories.", "anchors": ["src/gbinder_remote_object.c: gbinder_remote_object_handle_death_on_main_thread", "src/gbinder_remote_object.c: gbinder_remote_object_commit_suicide", "src/gbinder_remote_object.c: gbinder_remote_object_reanimate", "src/gbinder_remote_object.c: gbinder_remote_object_finalize"]}
{"id": "C35", "title": "Local object stays alive while remotely referenced", "statement": "A local object is not destroyed while the kernel holds a strong reference, weak/strong counts never go negative in a well-behaved kernel history, every acquire is acknowledged exactly once after it took effect, and dropping the object only stops its handler.", "quantifier": "every history of kernel reference commands and application ref/unref/drop calls", "why_tests_cant": "Histories and deferred processing.", "anchors": ["src/gbinder_local_object.c: gbinder_local_object_handle_acquire", "src/gbinder_local_object.c: gbinder_local_object_handle_release", "src/gbinder_local_object.c: gbinder_local_object_handle_increfs", "src/gbinder_local_object.c: gbinder_local_object_handle_decrefs", "src/gbinder_local_object.c: gbinder_local_object_drop"]}
{"id": "C36", "title": "Incoming transaction dispatch", "statement": "Ping, interface and HIDL base queries are answered by the library itself with the object's interfaces, everything else goes to the application handler exactly when one is set, and is rejected otherwise.", "quantifier": "every transaction code and interface, every interface list", "why_tests_cant": "2^32 codes times arbitrary interface names.", "anchors": ["src/gbinder_local_object.c: gbinder_local_object_default_can_handle_transaction", "src/gbinder_local_object.c: gbinder_local_object_handle_looper_transaction", "src/gbinder_local_object.c: gbinder_local_object_init_base"]}
{"id": "C37", "title": "Interface range lookup", "statement": "A client created with several interfaces uses, for a transaction code, the interface with the smallest last code not below it, and refuses codes above all ranges.", "quantifier": "every list of interfaces and every code", "why_tests_cant": "Unbounded lists in any order.", "anchors": ["src/gbinder_client.c: gbinder_client_find_range", "src/gbinder_client.c: gbinder_client_new2", "src/gbinder_client.c: gbinder_client_sort_ranges"]}
{"id": "C38", "title": "Synchronous calls always report a status", "statement": "gbinder_client_transact_sync_reply and gbinder_servicemanager_add_service_sync report a defined status in all cases, success only if the transaction was accepted, also when the peer is known to be dead.", "quantifier": "every state of the remote object and every argument", "why_tests_cant": "Reading an uninitialised variable is invisible to tests.", "anchors": ["src/gbinder_client.c: gbinder_client_transact_sync_reply2", "src/gbinder_servicemanager_aidl.c: gbinder_servicemanager_aidl_add_service", "src/gbinder_servicemanager_hidl.c: gbinder_servicemanager_hidl_add_service"]}
{"id": "C39", "title": "Service name registration is kept alive", "statement": "A registered service name has at most one registration call or retry timer outstanding at any time, is (re)registered whenever the service manager appears, is retried until it succeeds, and causes no activity after it was released.", "quantifier": "every history of presence changes, call results and timer expirations", "why_tests_cant": "Histories.", "anchors": ["src/gbinder_servicename.c: gbinder_servicename_new", "src/gbinder_servicename.c: gbinder_servicename_presence_handler", "src/gbinder_servicename.c: gbinder_servicename_add_service_done", "src/gbinder_servicename.c: gbinder_servicename_unref"]}
{"id": "C40", "title": "Service polling reports exactly the new names", "statement": "Each successful poll reports exactly the names that were not present in the previous successful list, each once, and afterwards exactly the listed names are known.", "quantifier": "every pair of consecutive name lists in any order", "why_tests_cant": "Arbitrary lists.", "anchors": ["src/gbinder_servicepoll.c: gbinder_servicepoll_list", "src/gbinder_servicepoll.c: gbinder_servicepoll_is_known_name"]}
{"id": "C41", "title": "Registration watches", "statement": "While at least one registration handler for a name exists and the service manager is present the name is watched, after the last handler is removed it is not, and a registration notification reaches exactly the handlers of the matching name.", "quantifier": "every history of adding and removing handlers, manager death and reappearance", "why_tests_cant": "Histories.", "anchors": ["src/gbinder_servicemanager.c: gbinder_servicemanager_add_registration_handler", "src/gbinder_servicemanager.c: gbinder_servicemanager_remove_handlers", "src/gbinder_servicemanager.c: gbinder_servicemanager_died", "src/gbinder_servicemanager.c: gbinder_servicemanager_reanimated", "src/gbinder_servicemanager.c: gbinder_servicemanager_service_registered"]}
{"id": "C42", "title": "Presence tracking", "statement": "While the service manager is absent exactly one presence check is scheduled, with delays growing by 100 ms from 100 to 1000 ms, and none while it is present; each change of presence is signalled once.", "quantifier": "every history of deaths, checks and waits", "why_tests_cant": "Histories.", "anchors": ["src/gbinder_servicemanager.c: gbinder_servicemanager_presense_check_timer", "src/gbinder_servicemanager.c: gbinder_servicemanager_presence_check_start", "src/gbinder_servicemanager.c: gbinder_servicemanager_died", "src/gbinder_servicemanager.c: gbinder_servicemanager_wait"]}
{"id": "C43", "title": "gbinder_servicemanager_wait honours its timeout", "statement": "With a non-negative limit the call sleeps at most that long in total (exactly that long when the manager never appears), polls immediately, returns as soon as a poll succeeds, and with a negative limit waits until the manager appears.", "quantifier": "every limit and every outcome of the polls", "why_tests_cant": "All timeouts and all outcomes.", "anchors": ["src/gbinder_servicemanager.c: gbinder_servicemanager_wait"]}
{"id": "C44", "title": "Service manager instances match the request", "statement": "gbinder_servicemanager_new2 returns an object of the requested kind using the requested RPC protocol, and equal requests share one instance while it is referenced.", "quantifier": "every history of creations and releases for every device and protocol", "why_tests_cant": "Depends on the order in which kinds are first used.", "anchors": ["src/gbinder_servicemanager.c: gbinder_servicemanager_new_with_type", "src/gbinder_servicemanager.c: gbinder_servicemanager_dispose", "src/gbinder_servicemanager_aidl2.c"]}
{"id": "C45", "title": "Cleanup callbacks run exactly once", "statement": "Every cleanup registered with a request or reply runs exactly once, when it is reset or released, and never before; file descriptors duplicated by the writer are closed exactly once.", "quantifier": "every history of registrations, resets and releases", "why_tests_cant": "Histories.", "anchors": ["src/gbinder_cleanup.c: gbinder_cleanup_add", "src/gbinder_cleanup.c: gbinder_cleanup_reset", "src/gbinder_cleanup.c: gbinder_cleanup_free", "src/gbinder_writer.c: gbinder_writer_data_append_fd"]}
{"id": "C46", "title": "Writers never write past their buffers", "statement": "Every object encoder writes at most as many bytes as the writer reserved for it.", "quantifier": "every object type, protocol and pointer size", "why_tests_cant": "A four-byte heap overflow is masked by allocator rounding.", "anchors": ["src/gbinder_writer.c: gbinder_writer_data_append_fda_object", "src/gbinder_writer.c: gbinder_writer_data_append_buffer_object", "src/gbinder_writer.c: gbinder_writer_data_append_local_object", "src/gbinder_writer.c: gbinder_writer_data_append_remote_object", "src/gbinder_io.h: GBINDER_MAX_BINDER_OBJECT_SIZE"]}
{"id": "C47", "title": "Looper pool", "statement": "Every looper is in exactly one of the primary and blocked lists until it is stopped; whenever a looper gets blocked by a pending request there is still a primary looper to serve other requests (if it could be created); the number of primary loopers never exceeds the limit because of returning loopers; stopping terminates all of them.", "quantifier": "every history of blocking and completion", "why_tests_cant": "Histories.", "anchors": ["src/gbinder_ipc.c: gbinder_ipc_looper_transact", "src/gbinder_ipc.c: gbinder_ipc_looper_remove_primary", "src/gbinder_ipc.c: gbinder_ipc_looper_remove_blocked", "src/gbinder_ipc.c: gbinder_ipc_stop_loopers"]}
{"id": "C48", "title": "Proxies answer every forwarded request", "statement": "A request forwarded by a proxy object is completed exactly once, with the remote's reply and status (driver errors mapped to -EFAULT), its header is in the destination's protocol, and objects in the request and reply are replaced by proxies such that one remote object has one proxy.", "quantifier": "every history of requests, replies and drops; every pair of protocols", "why_tests_cant": "Histories and protocol pairs.", "anchors": ["src/gbinder_proxy_object.c: gbinder_proxy_object_handle_transaction", "src/gbinder_proxy_object.c: gbinder_proxy_tx_reply", "src/gbinder_proxy_object.c: gbinder_proxy_object_converter_init"]}
{"id": "C49", "title": "Bridge activation", "statement": "A bridged interface is published on the source side exactly while the destination service is available, with at most one proxy and one registration at a time, and is republished after the destination restarts.", "quantifier": "every history of registrations and deaths of the destination", "why_tests_cant": "Histories.", "anchors": ["src/gbinder_bridge.c: gbinder_bridge_interface_activate", "src/gbinder_bridge.c: gbinder_bridge_interface_deactivate"]}
{"id": "C50", "title": "Service lists from AIDL service managers", "statement": "gbinder_servicemanager_list returns exactly the names the service manager returned, in order, and its length is bounded by the reply data.", "quantifier": "every reply", "why_tests_cant": "Peer controlled counts.", "anchors": ["src/gbinder_servicemanager_aidl.c: gbinder_servicemanager_aidl_list", "src/gbinder_servicemanager_aidl3.c: gbinder_servicemanager_aidl3_list"]}
{"id": "C51", "title": "Reading objects from any delivered message stays in bounds", "statement": "Whatever data, object table and buffers a peer hands to the driver, if the driver delivers the message then any sequence of read calls (plain values, objects, descriptors, HIDL strings, vectors, string vectors, structures) accesses only the data and the buffers of that message, and every address handed out to the caller points into those buffers with the announced size.", "quantifier": "every message a peer can get through the driver, every sequence of read calls", "why_tests_cant": "The peer is not trusted and controls counts, sizes and offsets.", "anchors": ["src/gbinder_reader.c: gbinder_reader_read_buffer_object", "src/gbinder_reader.c: gbinder_reader_read_hidl_struct1", "src/gbinder_reader.c: gbinder_reader_read_hidl_vec", "src/gbinder_reader.c: gbinder_reader_read_hidl_string_c", "src/gbinder_reader.c: gbinder_reader_read_hidl_string_vec", "src/gbinder_io.c: decode_buffer_object"]}
{"id": "C52", "title": "Structures arrive as deep copies", "statement": "A structure written with a type description (strings, vectors of structures, pointers, nested to any depth) is seen by the receiver as a deep copy: all plain bytes are the same and every pointer leads to the same contents, inside of the received message.", "quantifier": "every type description, every instance of it, any surrounding items", "why_tests_cant": "Types and instances are recursive and unbounded; involves the driver's pointer fixups.", "anchors": ["src/gbinder_writer.c: gbinder_writer_append_struct", "src/gbinder_writer.c: gbinder_writer_append_struct_vec", "src/gbinder_writer.c: gbinder_writer_data_append_fields"]}
{"id": "C53", "title": "Received text is exact or refused", "statement": "Whatever a peer has sent, gbinder_reader_read_string16 returns text if and only if the received 16-bit units (those which gbinder_reader_read_string16_utf16 returns at the same position) up to the first NUL are well-formed UTF-16, and then the text is exactly those characters in UTF-8; ill-formed text yields NULL, never mangled or truncated text.", "quantifier": "every received message, every position", "why_tests_cant": "Sequences of 16-bit units are unbounded and come from the peer.", "anchors": ["src/gbinder_reader.c: gbinder_reader_read_nullable_string16", "src/gbinder_reader.c: gbinder_reader_read_nullable_string16_utf16"]}
{"id": "C54", "title": "Registrations and lookups carry exactly what was asked for", "statement": "The transaction made by gbinder_servicemanager_add_service carries the name, the object, the flag for isolated processes (off) and the default dump priority in the places where a service manager speaking the same protocol reads them; a HIDL lookup asks for the two parts of the name and sends nothing if there is no slash in it.", "quantifier": "every name, object, kind of service manager and protocol", "why_tests_cant": "Layouts depend on arbitrary names and on the combination of protocol and service manager.", "anchors": ["src/gbinder_servicemanager_aidl.c: gbinder_servicemanager_aidl_add_service", "src/gbinder_servicemanager_aidl4.c: gbinder_servicemanager_aidl4_add_service_req", "src/gbinder_servicemanager_hidl.c: gbinder_servicemanager_hidl_get_service"]}
{"id": "C55", "title": "Received data lives until its last user and is given back once", "statement": "Data received from the driver, with the descriptors in it, stays as it is while there is a buffer referring to it or a request or reply which something was copied into from it; once nobody refers to it, it is given back to the driver and its descriptors are closed, exactly once.", "quantifier": "every history of receiving, copying, referencing, resetting and releasing", "why_tests_cant": "Ownership is shared in arbitrary ways; errors are double frees, leaks and descriptors closed under someone else.", "anchors": ["src/gbinder_buffer.c: gbinder_buffer_contents_unref", "src/gbinder_buffer.c: gbinder_buffer_contents_free", "src/gbinder_writer.c: gbinder_writer_data_append_contents", "src/gbinder_local_reply.c: gbinder_local_reply_set_contents"]}
{"id": "C56", "title": "Polled services are reported to whoever watches them", "statement": "With an AIDL service manager, a service for which a registration handler is connected is reported when the manager lists it: at once if the list is already known, otherwise with the next list which has it. It's reported once for each appearance, only while it's watched, and only if it was listed. The manager is polled exactly while something is watched, with one request at a time. Nothing freed is touched, whatever the handlers do.", "quantifier": "any history of watching and unwatching names, of answers of the service manager with any lists, of timers and idle callbacks, with handlers which may watch, unwatch and run the main loop while an answer is being processed", "why_tests_cant": "a test plays a few answers in a fixed order with handlers which do nothing; the failures need a handler which changes the watches or runs the main loop at a certain point of the comparison of two lists", "anchors": ["src/gbinder_servicepoll.c:gbinder_servicepoll_list", "src/gbinder_servicepoll.c:gbinder_servicepoll_new", "src/gbinder_servicepoll.c:gbinder_servicepoll_finalize", "src/gbinder_servicemanager_aidl.c:gbinder_servicemanager_aidl_watch", "src/gbinder_servicemanager_aidl.c:gbinder_servicemanager_aidl_watch_proc", "src/gbinder_servicemanager_aidl.c:gbinder_servicemanager_aidl_watch_notify", "src/gbinder_servicemanager_aidl.c:gbinder_servicemanager_aidl_unwatch"]}
{"id": "C57", "title": "HIDL registration notifications are delivered exactly while they are asked for", "statement": "With a HIDL service manager, each watched interface has its own notification object registered with the manager; a notification is turned into a call of the registration handlers with the full name exactly if it is well formed and the object is still in use. After the watch has ended or the manager is gone no notification gets through and nothing freed is touched. The object which is sent is alive when the registration call is made, and everything allocated for a watch is freed once.", "quantifier": "any history of watching, unwatching, replies of the manager of any contents, cancelled and late calls, and notifications with any data", "why_tests_cant": "a test has one watch and a well-behaved manager; the order of the reply, its cancellation, the release of the notification object and of notifications in flight on other threads can't be enumerated", "anchors": ["src/gbinder_servicemanager_hidl.c:gbinder_servicemanager_hidl_watch", "src/gbinder_servicemanager_hidl.c:gbinder_servicemanager_hidl_watch_free", "src/gbinder_servicemanager_hidl.c:gbinder_servicemanager_hidl_watch_call_reply", "src/gbinder_servicemanager_hidl.c:gbinder_servicemanager_hidl_watch_call_destroy", "src/gbinder_servicemanager_hidl.c:gbinder_servicemanager_hidl_notification", "src/gbinder_servicemanager_hidl.c:gbinder_servicemanager_hidl_handle_registration"]}
{"id": "C58", "title": "One connection per device and protocol", "statement": "While a binder connection which gbinder_ipc_new returned (and which clients, service managers and bridges share) is held by anyone, another request for the same device and protocol returns the same connection, so that handles and objects are shared. Whatever threads do at the same time, a freed connection is never returned or found, the device is opened once for each connection and closed once, when the last reference is gone, and nothing is left in the table of connections when nobody holds one.", "quantifier": "any number of threads requesting, referencing and releasing connections for any devices in any interleaving", "why_tests_cant": "whether a connection which is being released is found by another thread depends on a window of a few instructions between the last release and the removal from the table", "anchors": ["src/gbinder_ipc.c:gbinder_ipc_new", "src/gbinder_ipc.c:gbinder_ipc_unref", "src/gbinder_ipc.c:gbinder_ipc_dispose", "src/gbinder_ipc.c:gbinder_ipc_finalize"]}
{"id": "C59", "title": "Deferred calls reach their event loop exactly once", "statement": "Timeouts and deferred calls are always handed to the event loop integration which created them, even when the application has replaced the integration since. A deferred call's function is invoked at most once, never after it has been cancelled, and its data is freed exactly once, after the function has returned; a call that can't be cancelled is invoked exactly once before its data is freed.", "quantifier": "any history of creating, scheduling, cancelling and releasing deferred calls and timeouts, from any callback, with any replacements of the event loop integration", "why_tests_cant": "the order of cancellation, dispatch and release differs with every schedule and every integration, and tests run with one event loop", "anchors": ["src/gbinder_eventloop.c:gbinder_idle_callback_invoke_later", "src/gbinder_eventloop.c:gbinder_idle_callback_destroy", "src/gbinder_eventloop.c:gbinder_timeout_remove", "src/gbinder_eventloop.c:gbinder_eventloop_set"]}
{"id": "C60", "title": "Commands reach the driver once, whole and with their meaning", "statement": "Whatever the library asks of the binder driver (a transaction, a reply, taking and giving up references, death notifications, giving back a buffer, entering and leaving the loop), for all arguments and both kernel interfaces, the driver takes exactly that command from what is written: the bytes fit in the array where they are made, nothing is skipped or repeated when system calls are interrupted or take the data piece by piece, and the commands of a thread arrive in the order of the calls.", "quantifier": "all sequences of calls, all arguments which their types allow, both pointer sizes, and all sequences of results of the system calls, including interruptions and partial writes", "why_tests_cant": "which part of a command has been taken when a system call is interrupted is up to the kernel; tests replace ioctl with a function which always takes everything", "anchors": ["src/gbinder_driver.c: gbinder_driver_write, gbinder_driver_write_read, gbinder_driver_cmd_data, gbinder_driver_handle_cookie, gbinder_driver_transact, gbinder_driver_reply_data", "src/gbinder_io.c: write_read, encode_pointer, encode_cookie, encode_handle_cookie, encode_ptr_cookie", "src/gbinder_system.c: gbinder_system_ioctl"]}
{"id": "C61", "title": "The device stays open and mapped while it is used, and is closed exactly once afterwards", "statement": "A binder device which the library opens is given to the application only if the kernel's interface has version 7 (then 32-bit formats are used) or 8 (64-bit formats) and the mapping succeeds; otherwise nothing stays open or mapped. As long as anything needs the device, i.e. the connection, its worker threads, or data received from it which the application still holds, it stays open and mapped: received data can be read, and commands go to that device. When the last one is gone, it is unmapped and closed. No descriptor is ever closed twice, and none which belongs to the rest of the process is closed. (The code unmaps and closes the device under everybody else if a worker thread doesn't finish within half a second when it is stopped.)", "quantifier": "all histories of opening devices with any results of system calls, creating and releasing any number of connections, worker threads and pieces of received data in any order, reading them, sending commands (with the load of the descriptor as a separate step), giving up on worker threads, and the rest of the process opening and closing files under any numbers", "why_tests_cant": "the order in which references are released, the moment at which a thread is given up on, and the reuse of descriptor numbers by the rest of the process are not under a test's control; tests run with mocked system calls where unmapping is harmless", "anchors": ["src/gbinder_driver.c:gbinder_driver_new", "src/gbinder_driver.c:gbinder_driver_ref", "src/gbinder_driver.c:gbinder_driver_unref", "src/gbinder_driver.c:gbinder_driver_close", "src/gbinder_buffer.c:gbinder_buffer_contents_new", "src/gbinder_buffer.c:gbinder_buffer_contents_free", "src/gbinder_ipc.c:gbinder_ipc_looper_join", "src/gbinder_ipc.c:gbinder_ipc_looper_new"]}
{"id": "C62", "title": "A message queue which is appended to a message arrives as the same queue", "statement": "A queue created by gbinder_fmq_new may be appended to a request or reply between any other values. The receiver who reads the 32 bytes of its descriptor finds in the message everything which is needed to open the same queue: as many grantors with the same offsets, sizes and descriptor indices, the same item size and type, and a valid native handle whose descriptors are duplicates of the descriptors of the queue. Values before and after it arrive as if the queue weren't there. The message is accepted by the driver.", "quantifier": "all queues (sizes, types, with and without event flag and own memory), all sequences of append calls before and after, both binder interfaces, all results of memory allocation and all object tables of the driver", "why_tests_cant": "a test sends one queue in one message and looks at the writer's output; that the driver patches the right places and translates the right descriptors for every combination of lengths needs a proof over the driver's algorithm", "anchors": ["src/gbinder_writer.c:gbinder_writer_data_append_fmq_descriptor", "src/gbinder_writer.c:gbinder_writer_append_fmq_descriptor", "src/gbinder_writer.c:gbinder_writer_data_append_fds", "src/gbinder_fmq.c:gbinder_fmq_new", "src/gbinder_fmq.c:gbinder_fmq_get_descriptor", "src/gbinder_reader.c:gbinder_reader_read_hidl_struct1"]}
{"id": "C63", "title": "Message queues own exactly their memory, from creation to the last unreference", "statement": "For every history of gbinder_fmq_new, gbinder_fmq_ref and gbinder_fmq_unref of any number of queues, by any threads, with the application mapping and unmapping memory of its own: a queue which exists has its positions, ring and event flag mapped, at addresses where exactly the regions of its descriptor are visible; the last unreference unmaps the memory of that queue and nothing else; all memory is freed once; a failed creation changes nothing; and when there are no queues left, nothing which was acquired for them is left.", "quantifier": "all histories of creation, reference counting and destruction, all arguments of gbinder_fmq_new, all answers of memfd_create, ftruncate and mmap, and all choices of addresses by the kernel", "why_tests_cant": "the kernel chooses addresses and fails when it wants; what is next to a mapping isn't under control of a test, queues of several gigabytes are impractical and a descriptor which stays open is invisible", "anchors": ["src/gbinder_fmq.c:gbinder_fmq_new", "src/gbinder_fmq.c:gbinder_fmq_free", "src/gbinder_fmq.c:gbinder_fmq_map_grantor_descriptor", "src/gbinder_fmq.c:gbinder_fmq_unmap_grantor_descriptor", "src/gbinder_fmq.c:gbinder_fmq_unref"]}
{"id": "C64", "title": "Asynchronous calls own what they need until they are over, and nothing afterwards", "statement": "Once gbinder_client_transact, gbinder_servicemanager_list, _get_service or _add_service has returned, the application may drop its references to the client, the manager, the request and the object at any moment, and cancel the call at any moment: whatever the call and its callback use stays until it is over, and is released exactly once when it is. The list passed to the callback of gbinder_servicemanager_list belongs to the application if the callback returns TRUE and is freed otherwise, including after a cancellation. The object returned by gbinder_servicemanager_get_service_sync can be used without a reference until control returns to the event loop.", "quantifier": "all histories of calls, cancellations, references taken and dropped (also by callbacks), executions on the thread pool, results, idle callbacks and the shutdown of the pool, of any length and for any number of managers, clients and objects", "why_tests_cant": "whether a reference is dropped too early or never depends on the order in which the application, the event loop and the thread pool go on, and a leak is seen only when the whole history is accounted for", "anchors": ["src/gbinder_servicemanager.c:gbinder_servicemanager_list", "src/gbinder_servicemanager.c:gbinder_servicemanager_get_service", "src/gbinder_servicemanager.c:gbinder_servicemanager_add_service", "src/gbinder_servicemanager.c:gbinder_servicemanager_get_service_sync", "src/gbinder_servicemanager.c:gbinder_servicemanager_autorelease_cb", "src/gbinder_client.c:gbinder_client_transact", "src/gbinder_client.c:gbinder_client_transact_destroy", "src/gbinder_ipc.c:gbinder_ipc_tx_internal_free"]}
{"id": "C65", "title": "A call arrives as it was made and is answered as it was handled, from end to end", "statement": "A client makes a request for a code, appends arguments of any kind and makes the call. The handler of the remote object is called exactly once; it sees the same code, the name of the interface which the client uses for that code, whether the call is one-way, and it reads exactly the arguments which were appended. What it appends to its reply is exactly what the client reads from the reply it gets; if it returns no reply, the client gets the handler's status.", "quantifier": "every set of interfaces of the client, code, protocol, 32-bit and 64-bit drivers, sequence of arguments, reply, status, placement of the data in the memory of both processes", "why_tests_cant": "a test exchanges a few messages through a simulated driver which copies bytes; that every encoding step has its inverse on the other side for all arguments isn't visible from examples", "anchors": ["src/gbinder_client.c:gbinder_client_transact_sync_reply", "src/gbinder_client.c:gbinder_client_transact_sync_oneway", "src/gbinder_driver.c:gbinder_driver_transact", "src/gbinder_driver.c:gbinder_driver_handle_transaction", "src/gbinder_driver.c:gbinder_driver_txstatus", "src/gbinder_remote_request.c:gbinder_remote_request_set_data", "src/gbinder_local_object.c:gbinder_local_object_handle_transaction"]}
{"id": "C66", "title": "A message which is sent on by any number of processes arrives as it was made", "statement": "Requests and replies pass through proxy objects: a process receives a message and sends its contents on to another one, replacing the objects it has proxies for with objects of its own. If the first of them receives the message at all, then after any number of such processes, each of which makes whatever replacements it likes, the last receiver reads exactly what was appended by the first sender: numbers, strings, vectors and structures together with everything they point to, at any depth; for each object (unless it belongs to the last receiver) its own handle of the object which it has become on the way, also if the object has passed through the process to which it belongs; for each descriptor a copy of it. No process in the middle fails to make the copy and no copy is refused by the driver.", "quantifier": "every sequence of arguments, number of processes in the middle, replacements made by each of them, assignment of handles, descriptors and addresses by the driver, protocol, 32-bit and 64-bit drivers, requests and replies", "why_tests_cant": "the contents are copied without being parsed: pointers in the copy refer to the memory in which the message was received, and the driver checks each of them against the order and the parents of all buffers; a test has one message and one proxy", "anchors": ["src/gbinder_writer.c:gbinder_writer_data_append_contents", "src/gbinder_remote_request.c:gbinder_remote_request_convert_to_local", "src/gbinder_remote_reply.c:gbinder_remote_reply_convert_to_local", "src/gbinder_proxy_object.c:gbinder_proxy_object_handle_transaction", "src/gbinder_io.c:gbinder_io_object_size"]}
{"id": "C67", "title": "Configuration at run time", "statement": "The files are read when a protocol or a kind of service manager is looked up for the first time. After that all lookups of the same kind, from all threads, give answers according to one version of the files, even if those are edited. If both kinds are looked up before the event loop gets to run, they are answered from the same version. The files are read at most twice and everything which was loaded is released.", "quantifier": "All contents of the files, edits of the files, threads and interleavings of lookups with each other and with the event loop", "why_tests_cant": "What is looked up first, and what happens between the first lookup, its end, the event loop and the second lookup depends on the schedule and on the history of the process.", "anchors": ["src/gbinder_config.c:gbinder_config_get", "src/gbinder_config.c:gbinder_config_autorelease_cb", "src/gbinder_config.c:gbinder_config_load", "src/gbinder_rpc_protocol.c:gbinder_rpc_protocol_for_device", "src/gbinder_servicemanager.c:gbinder_servicemanager_new2"]}
{"id": "C68", "title": "Plain data in any message is decoded exactly", "statement": "Each plain item which gbinder_reader_read_bool/int8/.../double/string8/nullable_string8/string16/utf16/parcelable/byte_array/byte can read has one layout in the message. If an item of that layout comes next in the received data, whoever has made the message (other implementations store booleans in another byte, leave garbage in the padding, use any negative number for the size of an empty array), the call returns exactly its value and the reader stops right behind it. If there's no such item (cut off, no NUL in the right place, unknown size), the call fails; except for parcelables and single bytes the reader stays where it was. A message has only one reading, and what the writer appends has this layout, so that other implementations can read it. The calls which leave the data (C02) are excluded from the second part.", "quantifier": "every received byte sequence, every position in it, every kind of read call, every sequence of items and both ways to compile signed arithmetic", "why_tests_cant": "unit tests read what the library itself has written, plus a few hand-made buffers; the set of messages of other implementations is unbounded", "anchors": ["src/gbinder_reader.c:gbinder_reader_read_bool", "src/gbinder_reader.c:gbinder_reader_read_int8", "src/gbinder_reader.c:gbinder_reader_read_uint16", "src/gbinder_reader.c:gbinder_reader_read_uint32", "src/gbinder_reader.c:gbinder_reader_read_int64", "src/gbinder_reader.c:gbinder_reader_read_string8", "src/gbinder_reader.c:gbinder_reader_read_nullable_string8", "src/gbinder_reader.c:gbinder_reader_read_nullable_string16", "src/gbinder_reader.c:gbinder_reader_read_parcelable", "src/gbinder_reader.c:gbinder_reader_read_byte_array", "src/gbinder_writer.c:gbinder_writer_data_append_parcelable"]}
{"id": "C69", "title": "Convenience functions of requests and replies", "statement": "Appending to a request or a reply with its own append functions gives the same message as a writer of it, and both can be mixed. The read functions of a received request or reply return the first argument (after the header) each time, whatever else was read, and fail if there is none; a reply is reported to be empty exactly if nothing was appended. The interface, the process and the user of the caller are those of the transaction. All of these functions accept NULL: they do nothing and return NULL, FALSE, or an invalid id. Whatever a peer sends, they don't read outside of the received data.", "quantifier": "every sequence of append calls, every kind and value of arguments, both pointer sizes, all protocols, and (for the last sentence) every received message", "why_tests_cant": "There are 11 + 12 append functions and 7 + 7 read functions, and all sequences and values of arguments.", "anchors": ["src/gbinder_local_request.c: gbinder_local_request_append_int32", "src/gbinder_local_reply.c: gbinder_local_reply_append_fd", "src/gbinder_remote_request.c: gbinder_remote_request_read_int32", "src/gbinder_remote_request.c: gbinder_remote_request_sender_pid", "src/gbinder_remote_reply.c: gbinder_remote_reply_read_object", "src/gbinder_remote_reply.c: gbinder_remote_reply_is_empty"]}
{"id": "C70", "title": "A call through any number of proxies arrives as it was made, and so does the answer", "statement": "If the object which a client calls is a proxy (made by a bridge, or for an object which was passed through one), for an object of another process which may be a proxy too, and so on, then the handler of the last object is called exactly once with the same code, the same one-way flag, the interface name which the client uses for the code and the arguments which were appended, objects and descriptors being those into which the processes in the middle have turned them; the reply of the handler gets back to the client with status 0 and reads as it was appended; and if there's no reply the client gets the status of the handler (positive ones and -EAGAIN become -EFAULT).", "quantifier": "for every client, code and list of arguments, every number of proxies, every replacement of handles each of them makes, every placement of the messages in the memory of every process and every reply or status of the handler; one protocol, 32-bit and 64-bit", "why_tests_cant": "Tests have one proxy between two simulated connections and a few messages; that nothing is lost, refused by the driver or misread over any number of hops is a statement about all messages and all chains.", "anchors": ["src/gbinder_proxy_object.c: gbinder_proxy_object_handle_transaction, gbinder_proxy_tx_reply", "src/gbinder_remote_request.c: gbinder_remote_request_convert_to_local", "src/gbinder_remote_reply.c: gbinder_remote_reply_convert_to_local", "src/gbinder_driver.c: gbinder_driver_transact, gbinder_driver_handle_transaction", "include/gbinder_bridge.h"]}
{"id": "C71", "title": "An object exists as long as somebody uses it, in whatever process, and not longer", "statement": "An object which was sent to other processes, and was passed on by them to others, exists and can be called as long as some process has a remote object for it which is alive and has acquired its handle, or a message with it or a call of it has not been freed yet, even if everyone else including the application which created it has given it up. When the process of the object has nothing left to do, the object is there if and only if its application has a reference or somebody uses it; and when nobody does, nothing but what the library and the driver do by themselves is needed for it to be destroyed.", "quantifier": "all histories of a system of one object, any number of other processes and any number of threads in the process of the object: creation, references, sending, passing on, calls, lookups, releases, deaths and reuse of handles, freed messages, in any order and interleaved with the commands of the driver being read, deferred and handled; except that the application doesn't give up its last reference before its process has learnt about the first reference of others (the property is refuted for that)", "why_tests_cant": "The reference counts of two processes and of the driver have to agree through asynchronous commands; a test shows some interleavings of two processes, not all of any number of them.", "anchors": ["src/gbinder_local_object.c: gbinder_local_object_handle_acquire, gbinder_local_object_handle_release, gbinder_local_object_acquire_done", "src/gbinder_driver.c: gbinder_driver_handle_command, gbinder_driver_acquire, gbinder_driver_release, gbinder_driver_free_buffer", "src/gbinder_remote_object.c: gbinder_remote_object_new, gbinder_remote_object_finalize", "src/gbinder_ipc.c: gbinder_ipc_priv_get_local_object, gbinder_ipc_priv_get_remote_object"]}
{"id": "C72", "title": "Open files travel between processes like values", "statement": "A file descriptor which is appended to a request or a reply reaches the receiver as a descriptor for the same open file, whatever the sender does with its own descriptor and with other files afterwards, and the call is not refused because the descriptor was closed. The descriptors which the receiver reads are open and refer to those files as long as it keeps the data; those which it has read as duplicates, until it closes them; and the received ones can be passed on to the next process in copies of the data even after the original is freed. Once a process has released its requests, replies and received data, only the descriptors which its application has opened or duplicated are open in it.", "quantifier": "all histories of any number of processes which open, close, append, copy, send, read and free in any order, all numbers which the kernel may choose for descriptors (including reused ones), any number of descriptors per message; for the first part the application keeps a descriptor open while it has the message if duplicating it has failed (the property is refuted otherwise)", "why_tests_cant": "Whether a number refers to the same file depends on everything which was opened and closed in between in the process; a test tries some orders of a few operations, and numbers are seldom reused in it.", "anchors": ["src/gbinder_writer.c: gbinder_writer_append_fd, gbinder_writer_data_append_contents, gbinder_writer_data_set_contents", "src/gbinder_cleanup.c: gbinder_cleanup_add, gbinder_cleanup_reset", "src/gbinder_reader.c: gbinder_reader_read_fd, gbinder_reader_read_dup_fd", "src/gbinder_buffer.c: gbinder_buffer_contents_unref, gbinder_buffer_new", "src/gbinder_driver.c: gbinder_driver_close_fds"]}
{"id": "C73", "title": "One-way calls to an object are handled in the order in which they were made, one after another, even through proxies", "statement": "When a client makes one-way calls to an object, its handler is called for them in the order in which they were made, and for none twice; if the looper threads of the object's process are not stopped then none is skipped, and each is handled unless the application keeps an earlier one. At any time the application deals with at most one of them: while its handler has not returned, or it keeps a reference to the request, has left it blocked, has copied data from it which still exists or is still forwarding it, the handler isn't called for the next one. All this holds with any number of looper threads, and for objects behind any number of proxies, which send calls from pools of threads and yet keep the order and send each call which isn't cancelled once.", "quantifier": "all sequences of one-way calls, all numbers of looper and worker threads and all their schedules, whatever handlers do with requests (keep, block, complete, copy, forward), all points at which loopers are stopped or forwarded calls are cancelled, all lengths of chains of proxies", "why_tests_cant": "a test sees one schedule of a few threads; calls overtake each other only in particular interleavings of loopers, worker threads and the main loop", "anchors": ["src/gbinder_driver.c: gbinder_driver_handle_transaction, gbinder_driver_context_cleanup, gbinder_driver_free_buffer", "src/gbinder_ipc.c: gbinder_ipc_looper_transact, gbinder_ipc_looper_tx_handle, gbinder_remote_request_block, gbinder_remote_request_complete, gbinder_ipc_tx_proc", "src/gbinder_proxy_object.c: gbinder_proxy_object_handle_transaction, gbinder_proxy_tx_reply", "src/gbinder_client.c: gbinder_client_transact_sync_oneway2, gbinder_client_transact"]}
{"id": "C74", "title": "Two-way calls come back with the answers of their own handlers, and processes don't wait for each other forever", "statement": "Whatever two-way calls processes make to each other, synchronously or asynchronously, at the same time, from handlers and callbacks, and in whatever order handlers answer, block and complete them: what a caller gets from a call is what the handler answered to that call, or the status of a dead object if the other process has died, and the handler is called for it at most once. As long as no application is executing code of its own or has left a call blocked, calls which aren't over make progress and come back after a bounded number of steps of the library, however few looper and worker threads there are, if no processes call each other synchronously in a circle. (If they do, at the same time or from a handler, they wait until one of them dies; then the others go on.)", "quantifier": "all numbers of processes, all patterns of calls between them, all schedules of their main, looper and worker threads, all orders in which handlers return, block and complete, all times at which processes die", "why_tests_cant": "deadlocks and mixed up answers need particular interleavings of several threads in several processes; a test sees some of them, for a few patterns of calls", "anchors": ["src/gbinder_ipc.c: gbinder_ipc_looper_transact, gbinder_ipc_looper_tx_handle, gbinder_ipc_looper_thread, gbinder_remote_request_block, gbinder_remote_request_complete, gbinder_ipc_transact_sync_reply, gbinder_ipc_transact, gbinder_ipc_tx_proc, gbinder_ipc_tx_done", "src/gbinder_driver.c: gbinder_driver_transact, gbinder_driver_txstatus, gbinder_driver_handle_transaction"]}
{"id": "C75", "title": "What a message points to is there when it's sent, and copies have the value they had when they were made", "statement": "Requests and replies contain pointers to memory which is read when they are sent, possibly much later, by another thread. What gbinder_writer_append_hidl_string_copy, gbinder_writer_append_hidl_vec and gbinder_writer_append_fmq_descriptor append is sent as it was at the time of the call, no matter what the caller does with its memory afterwards. What gbinder_writer_append_hidl_string, gbinder_writer_append_hidl_string_vec, gbinder_writer_append_buffer_object, gbinder_writer_append_struct and gbinder_writer_append_struct_vec append is sent as it is when the message is sent, if the caller hasn't freed it. Memory returned by gbinder_writer_malloc and the like, descriptors made by the library and received data which was copied stay valid until the message is released by everyone (including pending transactions) or replaced. Everything is freed exactly once then.", "quantifier": "every history of allocating, changing and freeing memory, making, filling, replacing, referencing and releasing messages, receiving, copying and dropping data, and starting and finishing transactions", "why_tests_cant": "use of freed memory and leaks depend on the order of calls and of threads; a test sees junk only if the memory happens to be reused", "anchors": ["src/gbinder_writer.c: gbinder_writer_append_hidl_string_copy", "src/gbinder_writer.c: gbinder_writer_data_append_hidl_string", "src/gbinder_writer.c: gbinder_writer_data_append_hidl_vec", "src/gbinder_writer.c: gbinder_writer_data_append_hidl_string_vec", "src/gbinder_writer.c: gbinder_writer_append_struct_vec", "src/gbinder_writer.c: gbinder_writer_malloc", "src/gbinder_writer.c: gbinder_writer_data_append_fmq_descriptor", "src/gbinder_writer.c: gbinder_writer_data_append_contents", "src/gbinder_cleanup.c: gbinder_cleanup_free", "src/gbinder_ipc.c: gbinder_ipc_transact"]}
{"id": "C76", "title": "Messages have the bytes which Linux and Android define", "statement": "Every append call adds to the message exactly the bytes which the binder driver of Linux and the parcels of Android define for the appended value: numbers in little-endian order, strings with their length, terminator and padding, and objects, descriptors and buffers with the types, flags and fields of the driver, in both widths; the memory of HIDL strings and vectors has their layout. A request for an interface begins with the header of its protocol, which is looked for in exactly the transactions which have one, and the structures of transactions, replies and statuses have the fields and flags of the driver.", "quantifier": "all values of all types, all names, handles, addresses, sizes, counts and parents, whatever was appended before, both widths of the driver interface and all four protocols", "why_tests_cant": "A test compares the bytes of some messages; here they are given for all of them, by a description which doesn't use the library.", "anchors": ["src/gbinder_writer.c: gbinder_writer_append_int32, gbinder_writer_append_string16, gbinder_writer_append_local_object, gbinder_writer_append_hidl_string_vec", "src/gbinder_io.c: encode_local_object, encode_remote_object, encode_fd_object, encode_buffer_object, fill_transaction_data", "src/gbinder_rpc_protocol.c: gbinder_rpc_protocol_aidl3_write_rpc_header", "src/binder.h: flat_binder_object, binder_transaction_data"]}
{"id": "C77", "title": "Pings find out whether there is an object", "statement": "A synchronous ping of a handle returns 0 if an object of a process which uses this library is behind it. The receiver gets a ping as Android defines it (_PNG without data for AIDL; for HIDL the code 0x0f PNG of android.hidl.base@1.0::IBase), the object answers it by itself whatever its interfaces are and whether it has a handler or was dropped, and the handler isn't called. If there is no such object, the receiver is dead, or the driver can't deliver the ping, the result isn't 0.", "quantifier": "all protocols, handles, both pointer sizes, memory layouts of both processes, objects (interfaces, with and without handler, dropped or not), handlers, receiving threads and answers of the driver", "why_tests_cant": "Unit tests ping one object over a simulated pair of descriptors with one protocol; the result must hold for each protocol, object, memory layout and thread.", "anchors": ["src/gbinder_ipc.c: gbinder_ipc_ping_sync", "src/gbinder_driver.c: gbinder_driver_local_request_new_ping", "src/gbinder_rpc_protocol.c: gbinder_rpc_protocol_aidl_write_ping, gbinder_rpc_protocol_hidl_write_ping", "src/gbinder_local_object.c: gbinder_local_object_ping_transaction, gbinder_local_object_hidl_ping_transaction"]}
{"id": "C78", "title": "Threads which receive stay until they are told to exit, and then leave at once", "statement": "A thread which receives transactions stays in its loop until it is told to exit or the device fails; signals don't end it, and while it is there it takes the commands which wait. After it was told to exit it takes at most two more steps and reads at most once, only if it was doing so already, and it doesn't wait for anything before it leaves.", "quantifier": "all histories of any number of loopers of a device, commands, signals, failures of the device and requests to exit", "why_tests_cant": "The interesting histories depend on when signals arrive and on which of several threads gets a command; tests can't choose these.", "anchors": ["src/gbinder_driver.c: gbinder_driver_poll", "src/gbinder_ipc.c: gbinder_ipc_looper_thread, gbinder_ipc_looper_stop"]}
{"id": "C79", "title": "Signals don't change what callers get", "statement": "A signal which is delivered to a thread that waits for the handler of an incoming call, or for the completion of a blocked request, changes nothing about the answers: the call isn't answered before the handler or the application has decided, with what they have decided, and not twice; the calls which come next aren't affected either.", "quantifier": "all interleavings of the receiving thread, the main thread and the application, with any number of signals at any time; all states in which the thread waits; all answers", "why_tests_cant": "A test would have to deliver a signal to one particular thread while it is in poll, and to schedule the main thread between two of its instructions.", "anchors": ["src/gbinder_ipc.c: gbinder_ipc_wait, gbinder_ipc_looper_transact, gbinder_ipc_tx_handler_transact, gbinder_ipc_looper_tx_unref"]}
