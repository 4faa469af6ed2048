{
 "claims": [
  {
   "property": "C01",
   "status": "proved",
   "theorems": [
    "C01_parcel_roundtrip"
   ],
   "note": "All plain items; total size below 2^31. NULL string8 is excluded: append_string8(NULL) writes nothing."
  },
  {
   "property": "C02",
   "status": "partial",
   "theorems": [
    "C02_reader_in_bounds_partial",
    "C02_guard_is_exact",
    "C02_reader_in_bounds_refuted_byte_array",
    "C02_reader_in_bounds_refuted_string16"
   ],
   "note": "False in general (two refutations with concrete received data); proved under the exact guard bad_call."
  },
  {
   "property": "C03",
   "status": "proved",
   "theorems": [
    "C03_position_accounting"
   ],
   "note": "For histories that stay inside of the data (see C02)."
  },
  {
   "property": "C04",
   "status": "proved",
   "theorems": [
    "C04_append_only_aligned"
   ],
   "note": ""
  },
  {
   "property": "C05",
   "status": "partial",
   "theorems": [
    "C05_overwrite_inside",
    "C05_overwrite_outside_partial",
    "C05_overwrite_refuted",
    "C05_filled_in"
   ],
   "note": "The four largest gsize offsets wrap around and write out of bounds; everything else is proved. C05_filled_in: overwriting the place which bytes_written reported gives the message which would have been made with that number in the first place, whatever is appended in between."
  },
  {
   "property": "C06",
   "status": "proved",
   "theorems": [
    "C06_string16_any_bytes",
    "C06_valid_text_is_kept",
    "C06_longest_prefix"
   ],
   "note": ""
  },
  {
   "property": "C07",
   "status": "proved",
   "theorems": [
    "C07_offsets_exact"
   ],
   "note": ""
  },
  {
   "property": "C08",
   "status": "proved",
   "theorems": [
    "C08_buffers_size_exact"
   ],
   "note": ""
  },
  {
   "property": "C09",
   "status": "proved",
   "theorems": [
    "C09_parent_links",
    "C09_descriptors_found"
   ],
   "note": "Strings which are not NULL; sizes below 2^31; the memory is the same when the message is sent."
  },
  {
   "property": "C10",
   "status": "partial",
   "theorems": [
    "C10_message_roundtrip_partial",
    "C10_begins_with_buffer_refuted"
   ],
   "note": "Through the model of the binder driver in KernelModel.v; messages which begin with plain data (a header or a status), an object or a descriptor. Messages which begin with a HIDL string or vector are refused by the driver: refuted for all of them (requests have a header, replies a status in front)."
  },
  {
   "property": "C11",
   "status": "partial",
   "theorems": [
    "C11_object_roundtrip_partial",
    "C11_remote_object_refuted_aidl3",
    "C11_own_object_refuted"
   ],
   "note": "Refuted for remote objects with aidl3 and for objects of the receiver itself; proved for the rest."
  },
  {
   "property": "C12",
   "status": "partial",
   "theorems": [
    "C12_listed_null_partial",
    "C12_null_object_refuted"
   ],
   "note": "Refuted: NULL objects are not listed in the offsets by the writer and can't be read back. Listed ones are read."
  },
  {
   "property": "C13",
   "status": "partial",
   "theorems": [
    "C13_objects_validated_partial",
    "C13_objects_validated_32",
    "C13_objects_validated_refuted"
   ],
   "note": "Refuted for 64-bit offsets whose sum with the object size wraps around; proved for everything else (everything at all with 32-bit structures)."
  },
  {
   "property": "C14",
   "status": "proved",
   "theorems": [
    "C14_transaction_roundtrip",
    "C14_reply_roundtrip",
    "C14_what_the_driver_sees",
    "C14_status_roundtrip"
   ],
   "note": "Offsets as written by this library (C07)."
  },
  {
   "property": "C15",
   "status": "proved",
   "theorems": [
    "C15_contents_copied",
    "C15_contents_identical",
    "C15_contents_replaced"
   ],
   "note": "Contents whose objects are complete, as the driver delivers them."
  },
  {
   "property": "C16",
   "status": "partial",
   "theorems": [
    "C16_header_roundtrip",
    "C16_internal_transactions",
    "C16_no_interface",
    "C16_arguments_inside_partial",
    "C16_arguments_inside_refuted"
   ],
   "note": "The round trip is proved in full. The safety of reading arbitrary received headers fails for lengths which overflow (refuted) and is proved for the rest."
  },
  {
   "property": "C17",
   "status": "proved",
   "theorems": [
    "C17_protocol_choice",
    "C17_servicemanager_choice"
   ],
   "note": "Every device name, every configuration, every history of lookups."
  },
  {
   "property": "C18",
   "status": "proved",
   "theorems": [
    "C18_config_precedence"
   ],
   "note": "Conversion of the ApiLevel text to a number is a parameter; GKeyFile parsing is not modelled (a file is its list of assignments)."
  },
  {
   "property": "C19",
   "status": "proved",
   "theorems": [
    "C19_fifo"
   ],
   "note": "Answers of any sequence of operations on a synchronized queue are those of a FIFO; 2^64 bytes of total traffic is the limit (the counters are 64 bits)."
  },
  {
   "property": "C20",
   "status": "proved",
   "theorems": [
    "C20_single_reader_single_writer"
   ],
   "note": "All interleavings of the atomic accesses of one writer and one reader; sequentially consistent memory."
  },
  {
   "property": "C21",
   "status": "partial",
   "theorems": [
    "C21_write_after_read_refuted",
    "C21_torn_read_refuted",
    "C21_unsync_partial"
   ],
   "note": "The full claim is false of the code: a party which has read from the queue misplaces what it writes, and a read overtaken while copying succeeds with a mixture. Proved with a writer which doesn't read: writes up to the capacity succeed, reads far enough from the writer are exact, overrun readers resynchronize."
  },
  {
   "property": "C22",
   "status": "partial",
   "theorems": [
    "C22_overlap_refuted",
    "C22_outside_refuted",
    "C22_division_by_zero_refuted",
    "C22_layout_partial",
    "C22_accepted"
   ],
   "note": "False for sizes of 4 gigabytes and more, which are accepted; proved for all sizes up to 2^32 - page - 27."
  },
  {
   "property": "C23",
   "status": "partial",
   "theorems": [
    "C23_each_bit_consumed_once",
    "C23_rejected",
    "C23_wake_not_lost_partial",
    "C23_wake_not_lost_refuted"
   ],
   "note": "Results of waits and consumption of bits are proved for all schedules. Wake-ups may be lost when one wake concerns several sleeping threads (the count passed to the kernel is -1): refuted; proved for threads whose bits nobody else waits for."
  },
  {
   "property": "C24",
   "status": "partial",
   "theorems": [
    "C24_framing",
    "C24_command_meanings",
    "C24_command_subjects",
    "C24_requests_handled",
    "C24_all_taken_refuted"
   ],
   "note": "Proved for any split of any stream of commands into reads, with nested calls. If the call ends with a negative status from a reply, commands which follow the reply in the same buffer are dropped (refuted for streams which Linux doesn't produce)."
  },
  {
   "property": "C25",
   "status": "partial",
   "theorems": [
    "C25_one_reply_partial",
    "C25_as_many_replies",
    "C25_unknown_object_refused",
    "C25_one_way_decoded",
    "C25_one_way_answered_refuted"
   ],
   "note": "Refuted for incoming one-way transactions with the status code flag, which get answered; proved for all histories with respect to the decoded flag, which is the one from the driver in all other cases."
  },
  {
   "property": "C26",
   "status": "proved",
   "theorems": [
    "C26_buffers_returned_once"
   ],
   "note": "All histories, and prefixes of interrupted ones. A BR_REPLY which no call is waiting for is ignored with its buffer; those are counted separately."
  },
  {
   "property": "C27",
   "status": "proved",
   "theorems": [
    "C27_status",
    "C27_dead_and_failed",
    "C27_success"
   ],
   "note": "The four status codes which have a meaning for the library are replaced with -EFAULT."
  },
  {
   "property": "C28",
   "status": "proved",
   "theorems": [
    "C28_released_last"
   ],
   "note": ""
  },
  {
   "property": "C29",
   "status": "partial",
   "theorems": [
    "C29_one_life",
    "C29_silent_after_cancel",
    "C29_performed_and_reported",
    "C29_callbacks_on_event_loop",
    "C29_all_destroyed_partial",
    "C29_comes_to_rest",
    "C29_exit_waits",
    "C29_ipc_outlives_transactions",
    "C29_too_late_forgotten",
    "C29_all_destroyed_refuted"
   ],
   "note": "All of it holds for transactions made before gbinder_ipc_exit. Those made after it (by destroy callbacks which it calls) are never performed and their destroy callbacks are never called (C29_all_destroyed_refuted)."
  },
  {
   "property": "C30",
   "status": "proved",
   "theorems": [
    "C30_id_unused",
    "C30_one_transaction_per_id",
    "C30_always_finds_id",
    "C30_cancel_affects_only_its_own"
   ],
   "note": "For any position of the 32-bit counter; an id is always found if one is free."
  },
  {
   "property": "C31",
   "status": "proved",
   "theorems": [
    "C31_answer_is_the_first_completion",
    "C31_first_completion_unique",
    "C31_answered_once",
    "C31_answer_comes",
    "C31_answer_comes_when_stopped",
    "C31_nothing_crashes",
    "C31_all_freed",
    "C31_pipes_closed"
   ],
   "note": "All interleavings of a receiving thread (looper or worker), the main thread and the application. If the thread is told to stop while the request is blocked, the answer is -EFAULT. A looper which has been told to stop receives at most one more transaction (simplification, see BlockModel.v)."
  },
  {
   "property": "C32",
   "status": "partial",
   "theorems": [
    "C32_dropped_is_answered_refuted",
    "C32_dropped_after_answer_partial"
   ],
   "note": "The property is false: the driver keeps its own reference to the request until the answer is sent, so that dropping all references which belong to the application never completes the transaction. Proved for every reachable state and every continuation."
  },
  {
   "property": "C33",
   "status": "partial",
   "theorems": [
    "C33_same_object_partial",
    "C33_manager_object_partial",
    "C33_no_use_after_free_partial",
    "C33_same_object_refuted",
    "C33_use_after_free_refuted",
    "C33_new_service_refuted"
   ],
   "note": "True if a new object is made for a handle only when those of earlier services are freed and notifications about those are handled, and the race which a comment in the code describes doesn't happen. False otherwise, which is shown by histories for each case."
  },
  {
   "property": "C34",
   "status": "partial",
   "theorems": [
    "C34_commands_balanced",
    "C34_no_false_death_partial",
    "C34_death_is_signalled_partial",
    "C34_no_false_death_refuted",
    "C34_death_is_signalled_refuted",
    "C34_received_is_acquired_refuted"
   ],
   "note": "Balance and one signal per life hold in all histories. That deaths are real and that they are not lost holds in the histories of C33, and is false in others."
  },
  {
   "property": "C35",
   "status": "partial",
   "theorems": [
    "C35_alive_partial",
    "C35_counts_partial",
    "C35_at_rest_partial",
    "C35_acknowledged_once_partial",
    "C35_acknowledged_after_effect_partial",
    "C35_no_crash_partial",
    "C35_drop",
    "C35_sent_and_dropped_refuted",
    "C35_weak_negative_refuted",
    "C35_three_threads_refuted"
   ],
   "note": "For every number of threads and every interleaving of the kernel's reference commands, deferred unrefs, main loop callbacks, transactions and the application's own references: the object is alive while the kernel has a strong reference, counts are never negative and equal to the kernel's when everything is handled, each BR_ACQUIRE is acknowledged once in the step in which it takes effect. Excluded (each refuted): the application gives up an object between sending it and the library's learning of the kernel's reference; the address of a destroyed object is reused while the kernel has a weak reference; a reference obtained during the last release is dropped before that release is over."
  },
  {
   "property": "C36",
   "status": "proved",
   "theorems": [
    "C36_queries_answered",
    "C36_others_to_handler",
    "C36_no_object",
    "C36_dropped_object_calls_nothing",
    "C36_same_everywhere_refuted"
   ],
   "note": "Interface, ping and unknown queries, and everything else to the handler, on loopers and on the main thread. The answers differ between the two paths for handlers which give neither a status nor a reply."
  },
  {
   "property": "C37",
   "status": "proved",
   "theorems": [
    "C37_interface_of_code",
    "C37_refused_above_all",
    "C37_receiver_sees_interface",
    "C37_without_interfaces",
    "C37_one_interface"
   ],
   "note": "For any qsort which satisfies its contract; fewer than 2^32 interfaces."
  },
  {
   "property": "C38",
   "status": "partial",
   "theorems": [
    "C38_sync_reply_status",
    "C38_oneway_status",
    "C38_add_service_status_refuted",
    "C38_add_service_status_partial"
   ],
   "note": "False for dead service managers: an uninitialised variable is returned."
  },
  {
   "property": "C39",
   "status": "partial",
   "theorems": [
    "C39_one_call_one_timer",
    "C39_call_or_timer_partial",
    "C39_call_or_timer_refuted",
    "C39_kept_registered",
    "C39_retried",
    "C39_absent",
    "C39_silent_after_release"
   ],
   "note": "At most one awaited call and at most one timer, registration after every appearance, retries and silence after the release hold in all histories. That there is never both a call and a timer holds if each change of the presence is signalled once before the next one, and is refuted otherwise."
  },
  {
   "property": "C40",
   "status": "partial",
   "theorems": [
    "C40_reports_new_names_partial",
    "C40_nothing_missed",
    "C40_known_names",
    "C40_one_request_at_a_time",
    "C40_repeated_name_refuted",
    "C40_failed_poll_refuted"
   ],
   "note": "Exact for answers without repeated names and without failed polls in between. A name listed twice is reported again, and after a failed poll (NULL list) all names are reported again."
  },
  {
   "property": "C41",
   "status": "partial",
   "theorems": [
    "C41_watched",
    "C41_absent",
    "C41_only_handled_partial",
    "C41_watched_without_handlers_refuted",
    "C41_wrong_watch_ended_refuted",
    "C41_handler_for_service",
    "C41_notification"
   ],
   "note": "Services with handlers are watched while the manager is present, and notifications reach exactly the handlers of the registered service, for every history of one manager. That services without handlers are not watched is proved for histories in which every service that ever had a handler has one whenever the manager appears; otherwise it is refuted for all names: all services are watched again after a restart, and the next removal of a handler may end the wrong watch."
  },
  {
   "property": "C42",
   "status": "partial",
   "theorems": [
    "C42_one_check",
    "C42_signals",
    "C42_two_managers_refuted"
   ],
   "note": "For every history of one manager per device and protocol. With managers of two kinds on the same device and protocol it is refuted: a check stays scheduled while present, a second one is added on death, and the forgotten one touches the manager after it is freed."
  },
  {
   "property": "C43",
   "status": "proved",
   "theorems": [
    "C43_limited_wait",
    "C43_when_checks_are_made",
    "C43_returns_as_soon_as_found",
    "C43_unlimited_wait",
    "C43_present",
    "C43_interrupted_sleep"
   ],
   "note": "The loop, its pauses and interrupted sleeps. Time is the time slept; the checks themselves take none."
  },
  {
   "property": "C44",
   "status": "partial",
   "theorems": [
    "C44_right_manager_partial",
    "C44_shared",
    "C44_alive_partial",
    "C44_no_crash_partial",
    "C44_last_release",
    "C44_protocol_refuted",
    "C44_kind_refuted",
    "C44_freed_table_refuted",
    "C44_empty_device_refuted",
    "C44_two_threads_refuted"
   ],
   "note": "For every history of all threads in which the application avoids four things (an empty device name, the first use of aidl2/3/4 while an aidl manager exists, another protocol for an existing manager, and a release between the two checks of another thread's last release), gbinder_servicemanager_new2 returns a live manager of the requested kind, device and protocol, equal requests share it, and nothing freed is used. Refuted without each of the four."
  },
  {
   "property": "C45",
   "status": "proved",
   "theorems": [
    "C45_cleanups_run_once",
    "C45_no_use_after_free",
    "C45_descriptor_stays_open",
    "C45_closes_its_own"
   ],
   "note": "All histories; the caller only uses what it holds a reference to, and callbacks don't touch the message they belong to."
  },
  {
   "property": "C46",
   "status": "partial",
   "theorems": [
    "C46_writer_in_bounds_partial",
    "C46_writer_in_bounds_refuted"
   ],
   "note": "Refuted for append_fds on 64-bit; everything else is in bounds."
  },
  {
   "property": "C47",
   "status": "partial",
   "theorems": [
    "C47_one_list_partial",
    "C47_still_primary",
    "C47_still_receiving_partial",
    "C47_refused_looper_refuted",
    "C47_at_most_five_partial",
    "C47_no_crash_partial",
    "C47_freed_partial",
    "C47_stopped_partial",
    "C47_no_more_reads_partial",
    "C47_stop_completes_partial",
    "C47_stop_blocked_refuted"
   ],
   "note": "Proved for every schedule of any number of loopers in which they are not stopped while one of them is blocked, with the links of the lists as in the code. Refuted otherwise: at process exit a blocked looper adds and removes itself while it is being stopped, and is used after it was freed. A looper which the driver refuses stays in the list forever, so nothing is received."
  },
  {
   "property": "C48",
   "status": "partial",
   "theorems": [
    "C48_answer_is_the_remote_reply",
    "C48_answered_once",
    "C48_completed_once",
    "C48_answer_comes",
    "C48_reply_is_accepted",
    "C48_sent_once",
    "C48_one_proxy_partial",
    "C48_right_proxy",
    "C48_all_replaced_partial",
    "C48_references_balanced",
    "C48_finished_requests_hold_nothing",
    "C48_list_safe",
    "C48_list_right",
    "C48_list_freed",
    "C48_no_crash_partial",
    "C48_empty_request_refuted",
    "C48_header_partial",
    "C48_header_refuted",
    "C48_nested_request_refuted",
    "C48_dead_reply_refuted",
    "C48_one_proxy_refuted",
    "C48_all_replaced_refuted"
   ],
   "note": "For every history of any number of proxies, remote objects, requests and threads: the caller of a forwarded request gets one answer, which is the translated reply and the mapped status of the remote object (or an error if the object was dead or the library is stopping), the request is sent once to the right handle, and objects become proxies of the right objects. Refuted: the header is never translated to another protocol; a bridge may make a second proxy; a dead object's handle is copied; a request without data crashes the process; the reply callback may use a freed proxy if the status is DEAD_OBJECT; a request which arrives during a synchronous call on the main thread gets an empty reply at once."
  },
  {
   "property": "C49",
   "status": "partial",
   "theorems": [
    "C49_one_at_a_time",
    "C49_references_balanced",
    "C49_no_crash",
    "C49_nothing_left",
    "C49_names",
    "C49_published_exactly_partial",
    "C49_republished_partial",
    "C49_stays_withdrawn",
    "C49_listed_partial",
    "C49_overtaken_refuted",
    "C49_taken_over_refuted",
    "C49_unnoticed_refuted",
    "C49_stale_proxy_refuted",
    "C49_still_listed_refuted",
    "C49_old_one_listed_refuted"
   ],
   "note": "At most one proxy and one registration per interface, balanced references, no crash and nothing left after freeing hold for all histories. Publication exactly while the service is available, and republication after a restart, are proved when notifications come and are handled in order and names aren't taken over; each of the exceptions is refuted with a history. The source is never told that a service is gone."
  },
  {
   "property": "C50",
   "status": "partial",
   "theorems": [
    "C50_list_by_index",
    "C50_list_ends_refuted",
    "C50_list_in_reply",
    "C50_length_bounded_refuted",
    "C50_hidl_list"
   ],
   "note": "Order and contents are proved; the bound by the reply is false for aidl3/aidl4, and the aidl loop ends only if the manager lets it end."
  },
  {
   "property": "C51",
   "status": "partial",
   "theorems": [
    "C51_objects_in_bounds_partial",
    "C51_objects_in_bounds_refuted_string",
    "C51_objects_in_bounds_refuted_aidl3"
   ],
   "note": "Two refutations; proved for everything else the driver can deliver."
  },
  {
   "property": "C52",
   "status": "proved",
   "theorems": [
    "C52_structure_deep_copy"
   ],
   "note": "Through the model of the binder driver in KernelModel.v."
  },
  {
   "property": "C53",
   "status": "proved",
   "theorems": [
    "C53_received_text_exact"
   ],
   "note": "Relative to the units which are read in the same place; bounds are C02."
  },
  {
   "property": "C54",
   "status": "partial",
   "theorems": [
    "C54_registration_arrives_partial",
    "C54_registration_arrives_refuted",
    "C54_hidl_lookup",
    "C54_aidl_lookup",
    "C54_lookup_result"
   ],
   "note": "False for aidl4 with the aidl3 protocol, which the API level 31 preset combines: the stability of the object is sent twice."
  },
  {
   "property": "C55",
   "status": "proved",
   "theorems": [
    "C55_kept_while_copied",
    "C55_given_back_once"
   ],
   "note": "All histories, same assumptions as C45."
  },
  {
   "property": "C56",
   "status": "partial",
   "theorems": [
    "C56_no_crash_partial",
    "C56_nested_refuted",
    "C56_only_listed_partial",
    "C56_stale_refuted",
    "C56_not_missed_partial",
    "C56_comes",
    "C56_missed_refuted",
    "C56_once_partial",
    "C56_twice_refuted",
    "C56_polling"
   ],
   "note": "Polling exactly while something is watched, and one request at a time, hold in all histories. Proved when handlers get no nested answers and start no watches while an answer is processed: only listed services are reported and none is missed. Reported once if idle callbacks are also executed before the next answer. Each exception is refuted for all names: a nested answer frees the list in use, a late watch is told of a service which is gone, or never told of one which is there, and a late callback reports a service twice."
  },
  {
   "property": "C57",
   "status": "partial",
   "theorems": [
    "C57_no_crash",
    "C57_reported_while_in_use",
    "C57_name_understood",
    "C57_any_data_partial",
    "C57_any_data_refuted",
    "C57_one_object",
    "C57_agreed_kept",
    "C57_listening_partial",
    "C57_listening_refuted",
    "C57_sent_once",
    "C57_sent_alive",
    "C57_freed_at_most_once",
    "C57_all_freed_partial",
    "C57_all_freed_refuted"
   ],
   "note": "Delivery exactly while the object is in use, absence of crashes, at most one object per name, single sending of live objects and absence of double frees hold in all histories; the reported name is proved to be the one which was sent. Refuted: a string of 2^32-1 bytes makes the handler read out of bounds; a watch whose registration failed stays deaf and looks alive; the object and arguments of a call which isn't accepted are never freed."
  },
  {
   "property": "C58",
   "status": "partial",
   "theorems": [
    "C58_no_crash",
    "C58_open_while_held",
    "C58_right_device",
    "C58_always_one",
    "C58_closed_once",
    "C58_all_closed",
    "C58_release_ends",
    "C58_table_empty",
    "C58_shared_partial",
    "C58_one_partial",
    "C58_served_partial",
    "C58_shared_refuted",
    "C58_one_refuted"
   ],
   "note": "Safety, a single opening and closing, and the empty table at the end hold in all interleavings. Sharing, uniqueness and running loopers are proved when nobody asks for a connection between the release of its last reference and its removal from the table. Refuted for every history which does that: the connection which is found is taken out of the table with its loopers stopped although it is held, the next request opens a second one, and releasing the first one evicts the second."
  },
  {
   "property": "C59",
   "status": "partial",
   "theorems": [
    "C59_no_crash_partial",
    "C59_no_crash_refuted",
    "C59_right_loop",
    "C59_once",
    "C59_not_after",
    "C59_freed_once",
    "C59_freed_after",
    "C59_freed",
    "C59_cancel_frees",
    "C59_later",
    "C59_replaced_partial",
    "C59_replaced_refuted"
   ],
   "note": "The right integration, at most one call, none after cancel, data freed exactly once after the function returned, and exactly one call of a deferred function hold in all histories. Memory safety needs timeouts to be added on the loop's own thread, refuted otherwise: the timeout may be over and freed before its id is stored in it. An integration is called only while it is in use, except for objects which still exist when it is replaced (refuted)."
  },
  {
   "property": "C60",
   "status": "partial",
   "theorems": [
    "C60_no_overflow",
    "C60_understood_partial",
    "C60_in_order_partial",
    "C60_short_refuted",
    "C60_repeated_refuted"
   ],
   "note": "For all arguments and both interfaces: the arrays in which commands are built never overflow, and what the driver takes parses as the commands which were meant, in order, with any interruptions and however little it takes at a time, provided that it doesn't ask to repeat after having taken something and doesn't report success before it has taken everything. Refuted otherwise: a short write is reported as success for every command which is not a transaction; being asked to repeat after a part has been taken makes a command be written twice, so that a transaction is made twice."
  },
  {
   "property": "C61",
   "status": "partial",
   "theorems": [
    "C61_no_crash_partial",
    "C61_right_file_partial",
    "C61_held_partial",
    "C61_right_close",
    "C61_released",
    "C61_accepted",
    "C61_stuck_refuted",
    "C61_foreign_refuted"
   ],
   "note": "Which versions are accepted, that nothing stays behind after a failure, closing and unmapping once and only what the library opened, and releasing everything in the end hold in all histories. That the device is open and mapped while in use, that reads of received data are safe and that commands go to the right device is proved unless a worker thread is given up on. Refuted for every history in which that happens: received data which is held is unmapped, and a command about to be sent goes to whatever is opened under the same number."
  },
  {
   "property": "C62",
   "status": "partial",
   "theorems": [
    "C62_queue_arrives",
    "C62_any_queue_arrives",
    "C62_handle_version_refuted"
   ],
   "note": "For all queues, all calls before and after and both interfaces: the driver accepts the message, the descriptor which the receiver reads describes the same queue with the receiver's descriptors, and the other values arrive. On 64-bit interfaces the buffer of the writer must have four bytes to spare because the array of descriptors is written beyond what was reserved (C46). The native handle isn't a valid one (refuted for all queues): its version is its total size rather than 12."
  },
  {
   "property": "C63",
   "status": "partial",
   "theorems": [
    "C63_freed_once",
    "C63_no_crash_partial",
    "C63_memory_partial",
    "C63_only_own_pages_partial",
    "C63_released",
    "C63_failed_new",
    "C63_descriptor_refuted",
    "C63_null_refuted",
    "C63_no_ring_refuted",
    "C63_foreign_unmapped_refuted"
   ],
   "note": "Freeing once, nothing in memory left by a failed creation or by queues which are gone hold in all histories. That queues have their memory where their descriptors say, and that destruction unmaps exactly the memory of the queue, is proved for queues smaller than 4 gigabytes, and no crash as long as mmap doesn't fail. Refuted for every history: the descriptor of the shared memory is never closed; a failure to map the positions crashes and a failure to map the ring gives a queue without one; a larger queue unmaps the memory of others."
  },
  {
   "property": "C64",
   "status": "partial",
   "theorems": [
    "C64_no_crash",
    "C64_usable_is_there",
    "C64_calls_are_made",
    "C64_arguments_stay",
    "C64_callback_arguments",
    "C64_references",
    "C64_nothing_left",
    "C64_list_ownership",
    "C64_list_cancelled",
    "C64_transactions",
    "C64_sync_object_stays",
    "C64_sync_object_released",
    "C64_idle_callbacks_refuted",
    "C64_after_exit_refuted"
   ],
   "note": "In all histories nothing is used after it has been freed, arguments stay until the call is over, and every reference is accounted for; when the calls are over and nothing is left to be released, only what the application has is left. Refuted for every history: the idle callback which releases objects returned by the synchronous call is leaked each time it has been invoked, and calls which are made after the shutdown of the thread pool keep their arguments forever."
  },
  {
   "property": "C65",
   "status": "partial",
   "theorems": [
    "C65_call",
    "C65_status",
    "C65_oneway",
    "C65_empty_reply_refuted"
   ],
   "note": "The models of the writer, the commands, the driver, the structures, the header, the dispatcher and the reader put together: the call, the reply, the one-way call and the status. Refuted: the client can't tell an empty reply from none with status 0; and three statuses (-EAGAIN, 1 and 2) are replaced by -EFAULT, which is what C65_status says. Queries which the library answers itself are in C36. Scheduling and ownership are in other properties."
  },
  {
   "property": "C66",
   "status": "proved",
   "theorems": [
    "C66_sent_on_unchanged"
   ],
   "note": "Any number of hops, both directions, all kinds of arguments, objects of any process but the last receiver's (those can't be read at all, see C11). The requirement starts_well is what the driver requires of the first message (C10_begins_with_buffer_refuted)."
  },
  {
   "property": "C67",
   "status": "partial",
   "theorems": [
    "C67_right_answers_partial",
    "C67_same_version_partial",
    "C67_no_crash_partial",
    "C67_released_partial",
    "C67_same_version_refuted",
    "C67_right_answers_refuted",
    "C67_no_crash_refuted",
    "C67_released_refuted"
   ],
   "note": "Proved for every history in which the first lookup of each kind is made by the main thread; both kinds have the same version if the event loop doesn't run in between, and everything is released but one of the callbacks when the files are loaded twice. Refuted for all files otherwise: edited files between two lookups with the event loop in between give a mixture; a second thread which asks during the first lookup gets aidl instead of the configured default; the files are freed while another thread reads them; two threads which ask at the same time make the event loop free the same files twice and leak the others."
  },
  {
   "property": "C68",
   "status": "proved",
   "theorems": [
    "C68_decodes_exactly",
    "C68_unambiguous",
    "C68_messages",
    "C68_written",
    "C68_written_null"
   ],
   "note": "The layout of each kind is described as bytes in DecodeSpec.v, independently of the reader. The guard of the second part (bad_call) is the exact one of C02."
  },
  {
   "property": "C69",
   "status": "partial",
   "theorems": [
    "C69_same_as_writer",
    "C69_null",
    "C69_request",
    "C69_reply",
    "C69_any_request_partial",
    "C69_any_reply_partial",
    "C69_any_reply_refuted"
   ],
   "note": "Everything is proved, from the append calls of one process to the read calls of the other, except that gbinder_remote_request_read_string16 and gbinder_remote_reply_read_string16 read outside of the data for the lengths which are bad in C02 (refuted)."
  },
  {
   "property": "C70",
   "status": "proved",
   "theorems": [
    "C70_request",
    "C70_reply",
    "C70_status"
   ],
   "note": "C65 and C66 put together, for any number of proxies. The statement is a game: wherever the messages are put by the memory allocator and by the drivers, each process makes the next step. One protocol in all processes (another one is C48_header_refuted); proxies which are dropped or dead are in C48."
  },
  {
   "property": "C71",
   "status": "partial",
   "theorems": [
    "C71_held_partial",
    "C71_message_partial",
    "C71_messages_counted",
    "C71_call_partial",
    "C71_settled_partial",
    "C71_released_partial",
    "C71_sent_and_dropped_refuted",
    "C71_not_acquired_refuted"
   ],
   "note": "Proved for all histories in which the application of the object keeps it until its process has learnt about the references of others (and with the care of C35 otherwise), and for remote objects which have acquired their handles; other processes may do anything. Refuted without the first, and for remote objects which have not acquired their handles."
  },
  {
   "property": "C72",
   "status": "partial",
   "theorems": [
    "C72_same_files_partial",
    "C72_arrives_partial",
    "C72_duplicate_stays_partial",
    "C72_nothing_left",
    "C72_no_use_after_free",
    "C72_failed_dup_refuted"
   ],
   "note": "Partial because of what happens when fcntl(F_DUPFD_CLOEXEC) fails in gbinder_writer_append_fd: the theorems with the suffix are proved if the application keeps the original open as long as it has the message (and it is not one which belongs to received data), and refuted otherwise. The last two hold without that. Arrays of descriptors (fast message queues) are not included."
  },
  {
   "property": "C73",
   "status": "partial",
   "theorems": [
    "C73_in_order_partial",
    "C73_nothing_skipped",
    "C73_forwarded_sent",
    "C73_goes_on",
    "C73_not_forever",
    "C73_one_at_a_time_partial",
    "C73_empty_calls_in_order_refuted",
    "C73_async_calls_in_order_refuted"
   ],
   "note": "Proved for calls which aren't empty, made by gbinder_client_transact_sync_oneway; refuted for empty calls (their buffers are given back before they are handled) and for gbinder_client_transact, whose worker threads may overtake each other before the driver gets the calls. What the driver got, by whatever function, is handled in order (the last part of C73_in_order_partial)."
  },
  {
   "property": "C74",
   "status": "partial",
   "theorems": [
    "C74_own_answer",
    "C74_dead_only",
    "C74_handled_once",
    "C74_comes_back_partial",
    "C74_dead_comes_back",
    "C74_not_forever",
    "C74_asynchronous_comes_back",
    "C74_same_time_refuted",
    "C74_nested_refuted",
    "C74_depth_refuted"
   ],
   "note": "Proved for all histories of any number of processes without a circle of synchronous calls (asynchronous ones may make circles); refuted for any two processes which call each other synchronously, because handlers are executed by the main thread, which waits. Missing otherwise: handlers which never return or complete are the application's fault, and asynchronous calls which wait for each other can use up all worker threads (C74_depth_refuted). Processes may die at any time; the driver doesn't fail."
  },
  {
   "property": "C75",
   "status": "proved",
   "theorems": [
    "C75_sent_as_meant",
    "C75_no_junk",
    "C75_copies_stay",
    "C75_memory_stays",
    "C75_no_double_free",
    "C75_nothing_left",
    "C75_freed_early_refuted",
    "C75_other_message_refuted"
   ],
   "note": "The first three need an application which keeps memory to which messages point (that's part of the statement; the refuted ones show what happens otherwise, for every string and size); the others need nothing. Not included: the parents of buffer objects and the bytes besides them (C08, C09, C10), descriptors (C72), and vectors of more than 4 GB, whose size overflows."
  },
  {
   "property": "C76",
   "status": "proved",
   "theorems": [
    "C76_layout",
    "C76_header",
    "C76_header_expected",
    "C76_transaction"
   ],
   "note": "For all append calls but those of structures (their buffers are in C52), with sizes below 4 gigabytes. On 64-bit interfaces arrays of descriptors need four bytes to spare (C46)."
  },
  {
   "property": "C77",
   "status": "proved",
   "theorems": [
    "C77_ping_answered",
    "C77_ping_fails"
   ],
   "note": "Sender and receiver use the same protocol. The assumptions about the driver are those of C65. A service which doesn't use this library answers pings in its own way."
  },
  {
   "property": "C78",
   "status": "partial",
   "theorems": [
    "C78_stays",
    "C78_reads",
    "C78_little_left",
    "C78_exits_partial",
    "C78_interrupted_refuted",
    "C78_overtaken_refuted"
   ],
   "note": "All of it holds in all histories except that the thread doesn't wait after it was told to exit: proved if its poll wasn't interrupted and nobody else takes commands, refuted for every state otherwise (an interrupted poll is taken for something to read, and two threads are told about the same command; then it waits in ioctl)."
  },
  {
   "property": "C79",
   "status": "partial",
   "theorems": [
    "C79_interrupted_refuted",
    "C79_stale_refuted",
    "C79_answered_once_partial",
    "C79_nothing_crashes_partial"
   ],
   "note": "Refuted for every state in which such a thread waits, and for every idle looper (the next call succeeds with no data, and its handler isn't called). What remains true with signals is that no call is answered or handled twice, and that no thread uses or frees anything after it was freed; without signals everything is C31."
  }
 ]
}