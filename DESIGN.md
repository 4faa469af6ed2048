# Formal model of libgbinder: design

The model is written in Rocq (Coq 8.16.1), in `rocq/theories`. Nothing of /repo
is compiled or executed: every definition is a hand transcription of C code and
carries a comment with the file and lines it models.

## Conventions

* Numbers are `Z`. C integer widths are explicit: where the C code can wrap,
  the model applies `mod 2^32` / `mod 2^64`; where it has signed overflow, an
  out-of-bounds access, a use of freed memory or a NULL dereference, the model
  returns a distinct outcome (`Fault`, `Crash`). `Misuse`/`Disabled` stands for a
  call which the caller must not make or an event which can't happen in the state.
* Memory buffers are lists of bytes (`Z` in 0..255; -1 is an uninitialised byte).
* Concurrent and event-driven code is a small-step transition system whose moves
  are the API calls, the callbacks delivered by the main loop, the commands of the
  kernel and the atomic actions of the threads. Theorems quantify over all
  reachable states, or all finite histories of moves, of any length.
* One module of the library is split in up to four kinds of files:
  `XModel.v` (transcription only), `XSpec.v` (the independent specification: the
  words in which the theorems are stated), proof files, and `XProps.v` (the
  property theorems, with `Print Assumptions` and non-vacuity examples).
* When the English property is false of the code, a theorem called
  `..._refuted` shows it: a concrete history or message, or, wherever possible, a
  statement for all names/configurations/states. Beside it stands the strongest
  positive theorem we have, with the exact guard; its name ends in `_partial`.

## Trusted base

* Coq's kernel, with `vm_compute`/`lazy` conversion, used for witnesses. No
  native compilation, no OCaml plugins, no switched-off checks.
* `Print Assumptions` is below each property theorem in the `*Props.v` files. All
  of them print "Closed under the global context": no axiom is used, neither of
  the standard library nor our own. (A check of everything that is *loaded* also
  lists constants of `Coq.ssr.ssrunder`, a part of Coq's own standard library which
  other standard modules load; no theorem depends on them.)
* Only Coq's standard library is used.
* The faithfulness of the transcription, checked by reading, by citations (each
  definition names the lines it models) and by the mutation tests in
  `seeded/LOG.jsonl`.
* The environment, which is not in /repo and is modelled from its documentation:
  * the Linux binder driver: translation of transaction data and its checks
    (`KernelModel.v`), the command stream (`DriverModel.v`: arbitrary), handles,
    nodes and death notifications (`RemoteModel.v`), reference commands for local
    nodes (`LocalModel.v`), futex (`FlagModel.v`), file descriptors
    (`CleanupModel.v`);
  * GLib: UTF-8/UTF-16 conversion (`UtfModel.v`), the main loop runs one callback
    at a time on one thread, `GThreadPool` runs each pushed item once, hash tables
    are finite maps with arbitrary order, `g_object_unref` has two phases between
    which other threads may come (`InstModel.v`, `LocalModel.v`), the structure
    of a derived class starts as a copy of its parent's (`InstModel.v`), signal
    emission skips handlers which were disconnected meanwhile (`WatchModel.v`,
    `BridgeModel.v`), `qsort` sorts (`ClientModel.v`: any function which satisfies
    its contract);
  * memory is sequentially consistent; allocation doesn't fail.

## Properties

`status` is that of MANIFEST.json, which lists the theorems of each property.
"Partial" means that the property as stated is false or that a part isn't covered;
the note in MANIFEST.json says which.

| id | property | model | how it is proved | status | theorems |
|----|----|----|----|----|----|
| C01 | Parcel round trip of plain data | Writer/Reader/CodecSpec | typed list of values; round-trip lemma per type, induction on the list | proved | 1 |
| C02 | Readers never touch memory outside the received data | ReaderModel, CodecSafety | every load is checked; refuted for the length of byte arrays and string16 (wrap-around); positive theorem with the exact guard by induction over calls | partial | 4 |
| C03 | Read position accounting | ReaderModel | invariant over all sequences of calls | proved | 1 |
| C04 | Writer output stays 4-byte aligned and only grows | WriterModel, ObjModel | prefix and alignment invariant over operations | proved | 1 |
| C05 | overwrite_int32 replaces exactly four bytes | WriterModel, FillModel | case analysis with 64-bit wrap-around; refuted for the four largest offsets. Numbers which are filled in later: what append calls add does not depend on the bytes in front of it (relation between two runs, kept by every call, by induction over the calls and the types of structures) | partial | 4 |
| C06 | UTF-8/UTF-16 strings survive | UtfModel | round trip for every list of bytes, by induction on the text | proved | 3 |
| C07 | Object offsets describe the objects that were written | ObjModel | invariant over operations | proved | 1 |
| C08 | Scatter-gather size equals what the kernel needs | ObjModel | invariant against an independent sum over the parsed message | proved | 1 |
| C09 | HIDL parent links are valid | ObjModel, HidlWriter | invariant over operations | proved | 2 |
| C10 | HIDL values round trip through the kernel | ObjModel, KernelModel, ObjReader | round trip of lists of HIDL values through the driver model | partial | 2 |
| C11 | Object references round trip | same | round trip per kind of object; refuted for aidl3 remote objects and for the receiver's own objects | partial | 3 |
| C12 | NULL object is readable | same | refuted for all positions; positive theorem for listed objects | partial | 2 |
| C13 | Received object table is validated | TxModel | refuted with wrap-around; positive theorem for the rest, in full for 32-bit structures | partial | 3 |
| C14 | Transaction header round trip | TxModel | round trip of encode and decode for both layouts | proved | 4 |
| C15 | Copying received contents preserves them | TxModel | equality with an independent description of the copy | proved | 3 |
| C16 | RPC header round trip | RpcModel | round trip for each protocol; safety of arbitrary headers, refuted for overflowing lengths | partial | 5 |
| C17 | Protocol and service manager selection | ConfModel | equality with a declarative rule for every configuration and history of lookups | proved | 2 |
| C18 | Configuration precedence | ConfModel | equality with a declarative rule | proved | 1 |
| C19 | FMQ is a FIFO | FmqModel | refinement to a list queue, by induction over operations | proved | 1 |
| C20 | FMQ is safe for one reader and one writer running concurrently | FmqModel, FmqSystem | invariant over all interleavings of atomic accesses | proved | 1 |
| C21 | Unsynchronized FMQ | FmqUnsync | two refutations; positive theorem for a writer which doesn't read | partial | 3 |
| C22 | FMQ shared memory layout | FmqLayout | arithmetic; refuted for 32-bit overflow | partial | 5 |
| C23 | FMQ event flag wake-ups | FlagModel | invariant over all interleavings with futex; lost wake-up refuted | partial | 4 |
| C24 | Driver command stream framing | DriverModel | independence of the split into reads, by induction on the stream with nested calls | partial | 5 |
| C25 | One reply per two-way transaction | DriverModel | trace property of a recursive protocol | partial | 5 |
| C26 | Kernel buffers are returned exactly once | DriverModel | trace property, also for prefixes of interrupted histories | proved | 1 |
| C27 | Transaction status reporting | DriverModel | equality with a declarative description of the command list | proved | 3 |
| C28 | Reference releases wait for the command queue | DriverModel | trace property | proved | 1 |
| C29 | Asynchronous call callbacks | AsyncModel | invariant over interleavings of main thread and workers, with nested event loops | partial | 10 |
| C30 | Transaction ids | AsyncModel | 32-bit wrap-around and termination of the search | proved | 4 |
| C31 | Blocked requests complete with the given result | BlockModel | invariant over interleavings, plus progress | proved | 8 |
| C32 | Dropping a blocked request completes it | BlockModel | refuted in every reachable state and continuation; positive theorem after the answer | partial | 2 |
| C33 | One remote object per handle | RemoteModel | three refuting histories; invariant for careful histories | partial | 6 |
| C34 | Death is reported once and references are balanced | RemoteModel | invariant over all histories, three refuting histories | partial | 6 |
| C35 | Local object stays alive while remotely referenced | LocalModel | counting invariant over any number of threads; three refuting histories | partial | 10 |
| C36 | Incoming transaction dispatch | DispatchModel | equality with a declarative rule | proved | 5 |
| C37 | Interface range lookup | ClientModel | equality with a declarative rule for any correct qsort | proved | 5 |
| C38 | Synchronous calls always report a status | ClientModel | refuted (uninitialised status); positive theorems for the rest | partial | 4 |
| C39 | Service name registration is kept alive | NameModel | invariant over histories; refuted where signals are not in order | partial | 7 |
| C40 | Service polling reports exactly the new names | PollModel | set difference, by induction on sorted lists; two refutations | partial | 6 |
| C41 | Registration watches | WatchModel | invariant over histories; two refutations for all names | partial | 7 |
| C42 | Presence tracking | WatchModel | invariant over histories; refuted for two managers of one device | partial | 3 |
| C43 | gbinder_servicemanager_wait honours its timeout | WaitModel | arithmetic over all outcomes of the checks and interruptions | proved | 6 |
| C44 | Service manager instances match the request | InstModel | invariant over histories of all threads; five refutations | partial | 10 |
| C45 | Cleanup callbacks run exactly once | CleanupModel | trace property over histories | proved | 4 |
| C46 | Writers never write past their buffers | ObjModel, SafeSpec | every store is checked; refuted for arrays of descriptors on 64-bit | partial | 2 |
| C47 | Looper pool | PoolModel | invariant over schedules of any number of loopers with linked lists; two refutations | partial | 11 |
| C48 | Proxies answer every forwarded request | ProxyModel, BlockModel, TxModel, PendModel | invariant over histories with owners of references; seven refutations. The linked list of forwarded transactions: links and counts in memory refine what is pending, by an invariant over histories | partial | 22 |
| C49 | Bridge activation | BridgeModel | invariant over histories; six refutations | partial | 15 |
| C50 | Service lists from AIDL service managers | ClientModel | equality with a declarative rule; two refuted bounds | partial | 5 |
| C51 | Reading objects from any delivered message stays in bounds | ObjReader, KernelModel | every load is checked, by cases on the checks of the driver; two refutations | partial | 3 |
| C52 | Structures arrive as deep copies | HidlStruct, KernelModel | deep copy relation by induction on the structure type | proved | 1 |
| C53 | Received text is exact or refused | ReaderModel, UtfModel | equality with the units in the message, or refusal | proved | 1 |
| C54 | Registrations and lookups carry exactly what was asked for | RpcModel, ClientModel | round trip of the arguments; refuted for aidl4 with the aidl3 protocol | partial | 5 |
| C55 | Received data lives until its last user and is given back once | CleanupModel, DriverModel | trace property over histories | proved | 2 |
| C56 | Polled services are reported to whoever watches them | AwModel, PollModel | invariant over histories in which answers are processed step by step; four refutations for all names | partial | 10 |
| C57 | HIDL registration notifications are delivered exactly while they are asked for | HwModel, ObjReader, KernelModel | invariant over histories; round trip of the notification; three refutations | partial | 14 |
| C58 | One connection per device and protocol | ConnModel | invariant over schedules of any number of threads; two refutations for every history | partial | 13 |
| C59 | Deferred calls reach their event loop exactly once | LoopModel | every move as a function of one object, invariant over histories; two refutations | partial | 12 |
| C60 | Commands reach the driver once, whole and with their meaning | CmdModel, TxModel | parser of the kernel applied to everything which was written; induction over results of system calls; two refutations | partial | 5 |
| C61 | The device stays open and mapped while it is used, and is closed exactly once afterwards | DevModel | invariant over histories: references of a device are its users, counts of system calls; two refutations for every history | partial | 8 |
| C62 | A message queue which is appended to a message arrives as the same queue | FmqSendModel, FmqModel, ObjModel, KernelModel | every step of the driver on the four objects of a queue, composed with the induction over other calls; one refutation for all queues | partial | 3 |
| C63 | Message queues own exactly their memory, from creation to the last unreference | FmqLifeModel, FmqModel | invariant over histories: blocks of memory and pages with their owners; four refutations for every history | partial | 10 |
| C64 | Asynchronous calls own what they need until they are over, and nothing afterwards | CallModel on top of AsyncModel | invariant over histories: references of each thing are those of the application, of calls which aren't over and of lists to be released; what a call owns by its phase; two refutations for every history | partial | 14 |
| C65 | A call arrives as it was made and is answered as it was handled, from end to end | WholeModel, which puts ObjModel, CmdModel, KernelModel, TxModel, RpcModel, DispatchModel, ClientModel and ObjReader together | composition: each encoding has its inverse; the message is described by pieces, induction over them; one refutation | partial | 4 |
| C66 | A message which is sent on by any number of processes arrives as it was made | ProxyConv, TxModel and KernelModel, iterated | each append call is replaced with one which would give the same if it were made by the process in the middle (trees of buffers: those relocated to where they were received); induction over the calls for one hop, over the hops for all | proved | 1 |
| C67 | Configuration at run time | CfgModel on top of ConfModel | invariant over interleavings: the first lookup of each kind step by step, who holds what was loaded, which version each table is made of; four refutations for all files | partial | 8 |
| C68 | Plain data in any message is decoded exactly | ReaderModel and WriterModel against the layouts in DecodeSpec | soundness and completeness of every read call with respect to the layout; induction over the items of a message | proved | 5 |
| C69 | Convenience functions of requests and replies | ShortModel: each of the append and read functions of requests and replies, on top of the models of the writer, the reader and of whole calls (WholeModel) | each function equals the writer's one, then C65's theorems; the first item which is read; safety from C02's lemmas | partial | 7 |
| C70 | A call through any number of proxies arrives as it was made, and so does the answer | ViaModel.v (proxies in terms of WholeModel.v and ProxyConv.v), ViaSpec.v (the way from process to process) | the invariant of messages on their way of C66 (FwdProofs.v) is kept by each proxy, and what it says is enough for the driver to accept the copy and for the next process to read its header: induction on the list of proxies | proved | 3 |
| C71 | An object exists as long as somebody uses it, in whatever process, and not longer | KeepModel.v: LocalModel for the process of the object, RemoteModel for each of the others, and the driver which counts the references between them | invariant over histories: the driver's strong references are those of remote objects which have acquired the handle and of messages; what the process of the object doesn't know yet is kept by its application; then C35. Release: a weight which each step of the library decreases. Two refutations | partial | 8 |
| C72 | Open files travel between processes like values | FilesModel.v: any number of processes of CleanupModel.v with the files to which their descriptors refer, and the driver which duplicates them; FilesSpec.v: a world in which messages are lists of files | refinement by an invariant: each descriptor in a live message or buffer is open, owned by something which the message or the buffer keeps, and refers to the file of the simple world; C45's invariant says who owns it | partial | 6 |
| C73 | One-way calls to an object are handled in the order in which they were made, one after another, even through proxies | OnewayModel.v: the driver's queue of an object, each call with its looper, its callback, its request and whoever holds the data; a row of objects which forward calls to each other; OnewaySpec.v: lists of calls | invariant of a call (who holds references in which state), of an object (only the last call which was taken may not have been given back to the driver) and of all objects; progress by cases and a weight; two refutations by short histories | partial | 8 |
| C74 | Two-way calls come back with the answers of their own handlers, and processes don't wait for each other forever | CallsModel.v: any number of processes, which may die, with a main thread, primary loopers and worker threads each, and the calls on their way; CallsSpec.v: what the caller got, who is busy, circles | invariant (who waits for which call, which frames belong to which calls, a primary looper is always left); progress: the caller of the lowest rank can't wait; a weight which every step of the library decreases; two refutations for all pairs of processes by an invariant of the deadlock | partial | 10 |
| C75 | What a message points to is there when it's sent, and copies have the value they had when they were made | MemoryModel.v: memory of the library and of the application, messages with their buffer objects (pointers) and cleanups, received data with references, pending transactions; sending reads the memory and gets junk where it was freed | refinement of a world where memory is never freed and messages are lists of values (MemorySpec.v), by an invariant about owners of memory and counts of references; no double free and no leaks without any assumption about the application; junk is sent when the application frees memory early (refuted) | proved | 8 |
| C76 | Messages have the bytes which Linux and Android define | WriterModel.v, ObjModel.v, RpcModel.v and TxModel.v as before; WireSpec.v describes the formats of Linux and Android as bytes, without the constants and functions of the models | Each append function is rewritten to the bytes it appends (lemmas of C01, C07, C10), which are compared with the description; vectors of strings by induction | proved | 4 |
| C77 | Pings find out whether there is an object | PingModel.v on top of WholeModel.v and DispatchModel.v | what arrives is a ping as Android defines it (PingSpec.v, with literal codes and name), by the lemmas of C65; the object answers by itself; the answer is followed back to the caller. The failures: a status, and the two answers of the driver | proved | 2 |
| C78 | Threads which receive stay until they are told to exit, and then leave at once | TurnModel.v: the loop of gbinder_ipc_looper_thread with gbinder_driver_poll, the pipe and the flag, for any number of threads; poll and ioctl as Linux defines them | invariants over histories (why a thread leaves, that what poll has promised is there), a measure of what is left to do, and two refutations for every state | partial | 6 |
| C79 | Signals don't change what callers get | SignalModel.v: BlockModel.v with one more thing which may happen, an interrupted poll | from the invariant of C31 at the time of the signal, the next steps of the thread are computed for every state; two small invariants (a callback which is gone stays gone, an answered call is not answered again) say that nothing repairs it later. Answered once: an invariant over all histories with signals. Nothing crashes: a simulation of loopers and workers by a looper of BlockModel.v which was told to stop (SignalSafe.v) | partial | 4 |

## What was found in the code

Each line is proved by the theorem in parentheses.

* Lengths read from a message wrap around: byte arrays and string16 read out of
  bounds (`C02_..._refuted_...`), so do RPC headers (`C16_arguments_inside_refuted`),
  the object table (`C13_objects_validated_refuted`), `gbinder_writer_overwrite_int32`
  (`C05_overwrite_refuted`) and HIDL strings/aidl3 objects delivered by the driver
  (`C51_..._refuted_...`).
* `gbinder_writer_append_fds` writes past its allocation on 64-bit
  (`C46_writer_in_bounds_refuted`).
* A NULL local object is written but can't be read back (`C12_null_object_refuted`);
  remote objects are misread by aidl3 (`C11_remote_object_refuted_aidl3`); aidl4 sends
  the stability twice with the aidl3 protocol (`C54_registration_arrives_refuted`).
* Message queues: sizes above 4 gigabytes overlap or divide by zero (`C22_*_refuted`),
  unsynchronized queues return torn data (`C21_*_refuted`), wake-ups of several
  waiters get lost (`C23_wake_not_lost_refuted`).
* Incoming one-way transactions with the status code flag are answered
  (`C25_one_way_answered_refuted`); asynchronous calls made after
  `gbinder_ipc_exit` are leaked (`C29_all_destroyed_refuted`); a request dropped by
  the application is never completed (`C32_dropped_is_answered_refuted`).
* Remote objects: after a handle is reused, an old object may be returned, signalled
  dead, or freed memory used (`C33_*_refuted`, `C34_*_refuted`).
* `gbinder_servicemanager_add_service_sync` returns an uninitialised status for a dead
  manager (`C38_add_service_status_refuted`); polls repeat names
  (`C40_*_refuted`); a wrong watch may be ended (`C41_wrong_watch_ended_refuted`);
  two managers of a device share a presence timer and use freed memory
  (`C42_two_managers_refuted`); `gbinder_servicemanager_new2` ignores the protocol and
  the kind, and its table is used after being freed (`C44_*_refuted`).
* Local objects given up between sending and the kernel's reference are lost
  (`C35_*_refuted`); a blocked looper is used after being freed when the loopers are
  stopped (`C47_stop_blocked_refuted`).
* Proxies never translate the header, crash on requests without data, use a freed
  proxy and copy raw handles of dead objects (`C48_*_refuted`); bridges lose or keep
  services when notifications are out of order (`C49_*_refuted`).
* With polled (AIDL) managers, a handler which runs the main loop makes the library use
  a freed list, and a watch started by a handler is never told of a service which is
  there, or told of one which is gone (`C56_*_refuted`).
* With HIDL managers, a refused registration leaves a watch which looks alive and never
  gets anything, a call which isn't accepted leaks an object, and a hostile notification
  reads out of bounds (`C57_*_refuted`).
* A connection which is asked for while another thread gives up its last reference is
  handed out with its loopers stopped and outside the table, the next request opens a
  second one, and giving up the first takes the second out (`C58_*_refuted`).
* A timeout added by another thread than the loop's may be over and freed before its id
  is stored in it (`C59_no_crash_refuted`); an event loop integration which was replaced
  is called after its cleanup (`C59_replaced_refuted`).
* A command of which the driver takes only a part is reported as written, and what it took
  before it asked to try again is written once more (`C60_*_refuted`).
* A worker thread which doesn't finish within half a second makes the library unmap received
  data which the application holds, and close the descriptor under others, whose commands may
  go to a foreign file (`C61_*_refuted`).
* The native handle of every message queue carries its total size (16 or 20) instead of
  GBINDER_HIDL_FDS_VERSION (12) as its version. Android's native_handle_close() and
  native_handle_clone() refuse such a handle (C62).
* The memfd behind a message queue is never closed: a descriptor leaks with every queue, and with
  every attempt which fails in ftruncate. mmap failures are not handled: the positions are reset
  through NULL, or the ring of the new queue is NULL. The ring of a queue of 4 gigabytes or more
  is mapped with its length cut to 32 bits and unmapped with the full one, so that
  whatever is mapped behind it goes away (`C63_*_refuted`).
* C64: `gbinder_servicemanager_autorelease_cb` clears the pointer to the idle callback which invoked it without dropping the reference which `gbinder_idle_callback_schedule_new` gave to the manager, and so one callback is leaked for each batch of objects which `gbinder_servicemanager_get_service_sync` has returned (`C64_idle_callbacks_refuted`). Calls which are made after `gbinder_ipc_exit` are never executed or destroyed and keep the manager or the client and other arguments (`C64_after_exit_refuted`).
* C65: a reply without data and no reply with status 0 look the same to the client; the status stored by a handler which returns a reply is lost; -EAGAIN, 1 and 2 stored by a handler arrive as -EFAULT.
* C10: the driver refuses every message which begins with a HIDL string or vector, for instance a reply without a status (`C10_begins_with_buffer_refuted`).
* C67: the lookups of protocols and of kinds of service managers fill their tables without a lock: a thread which comes second gets aidl instead of the configured default, the files may be freed while they are read or freed twice (`C67_*_refuted`). Even with one thread, `gbinder_config_autorelease_cb` doesn't clear or release `gbinder_config_autorelease`, so that the callback is lost when the files are loaded again.
* C71: an object which the application gives up after sending it, before its process has read about the new reference, is destroyed while the receiver has a live remote object for it; and so is one which another process has as a remote object that was made for a proxy (without acquiring the handle), when the message is freed (`C71_sent_and_dropped_refuted`, `C71_not_acquired_refuted`).
* C72: if fcntl(F_DUPFD_CLOEXEC) fails in gbinder_writer_append_fd, the descriptor itself is written to the message and nothing keeps it open; if the application closes it before it sends the message, as it may otherwise, then another file which was opened in the meantime arrives (`C72_failed_dup_refuted`), or the driver refuses the call. Arrays of descriptors (those of fast message queues) are never duplicated, and are outside of this property: the driver itself closes the received ones.
* C73: the buffer of an empty request (no data at all, not even a header) is given back to the driver before the request is handled, so that the driver hands out the next one-way call and another looper may handle it first (`C73_empty_calls_in_order_refuted`). One-way calls which are made by `gbinder_client_transact` go through a pool of threads and may reach the driver in another order (`C73_async_calls_in_order_refuted`). A one-way request which the application keeps, blocks and forgets, or copies data from holds up all later one-way calls to that object (`C73_one_at_a_time_partial`); proxies keep the order because of that.
* C74: handlers are executed by the main thread. Two processes whose main threads call each other synchronously at the same time, or where a handler synchronously calls the process whose synchronous call it handles, wait until one of them dies (`C74_same_time_refuted`, `C74_nested_refuted`): the nested call isn't passed to the thread which waits, as the driver would do it for threads which handle calls themselves, since the library receives calls by loopers and makes them by other threads. Asynchronous calls don't have this problem, but each occupies one of 15 worker threads until it is answered: recursion between two processes by blocked requests and asynchronous calls gets stuck at a depth of 30 (`C74_depth_refuted`).
* C75: `gbinder_writer_append_hidl_string` and `gbinder_writer_append_hidl_string_vec` don't copy the strings, and the header
  says so only for `gbinder_writer_append_struct`. A string which is freed after `gbinder_client_transact` has returned, but
  before a worker thread has sent the request, is sent as junk (`C75_freed_early_refuted`); a test with the
  synchronous functions doesn't notice. So is memory which was allocated with the writer of one request and used in another
  one which lives longer. Within the library itself the requirement is met: local objects whose names are in a reply are
  released after the reply is sent (src/gbinder_driver.c:593-596).
* C78: `gbinder_driver_poll` returns -1 when `poll` is interrupted by a signal. The loop of
  `gbinder_ipc_looper_thread` tests this with `res & POLLIN`, which is true for -1, so the thread goes to the
  blocking `ioctl` although there's nothing to read. There it doesn't see the pipe and can't be told to exit
  until a command arrives. Two loopers which wait for the same device get there without a signal: `poll`
  tells both of them about the same command, and the one which comes second waits in `ioctl`.
* C79: `gbinder_ipc_wait` takes a `poll` which was interrupted by a signal for a failure. The call is answered with -EFAULT
  although its handler may be running; if it wasn't called yet, it never is (`C79_interrupted_refuted`). If the handler
  returns before the looper drops its reference to the transaction, the byte it has written stays in the pipe, which the
  looper uses again. The next call then reads it, and is answered with success and no data without calling
  its handler (`C79_stale_refuted`). When a looper is told to stop the same thing happens, but then there's no next call.

Not expressed as theorems, but noticed while transcribing: an unexpected BR_REPLY's
buffer is never freed; a command larger than the 128-byte read buffer would be waited
for forever; a refused `gbinder_client_transact` never calls its destroy callback;
`gbinder_writer_add_cleanup` with a NULL writer drops the callback silently; names with
an underscore are refused by the hidl registration handler; class mutexes are copied
together with the class structure; a looper which exits by itself is neither joined nor
detached.

## Which code is modelled

Functions with at least one citation of their lines in the model, per file. Functions
without a citation are listed: most of them are accessors, wrappers with NULL checks,
GObject boilerplate and logging.

* `src/gbinder_bridge.c`: 10/10 functions, 128/128 lines
* `src/gbinder_buffer.c`: 10/17 functions, 76/133 lines. Not cited: gbinder_buffer_alloc, gbinder_buffer_data, gbinder_buffer_driver, gbinder_buffer_io, gbinder_buffer_protocol, gbinder_buffer_objects, gbinder_buffer_contents
* `src/gbinder_cleanup.c`: 4/5 functions, 28/34 lines. Not cited: gbinder_cleanup_new
* `src/gbinder_client.c`: 16/21 functions, 229/266 lines. Not cited: gbinder_client_free, gbinder_client_ref, gbinder_client_interface, gbinder_client_transact_sync_reply, gbinder_client_transact_sync_oneway
* `src/gbinder_config.c`: 7/8 functions, 206/216 lines. Not cited: gbinder_config_exit
* `src/gbinder_driver.c`: 39/47 functions, 846/942 lines. Not cited: gbinder_driver_verbose_dump, gbinder_driver_verbose_dump_bytes, gbinder_driver_verbose_transaction_data, gbinder_driver_fd, gbinder_driver_dev, gbinder_driver_io, gbinder_driver_protocol, gbinder_driver_local_request_new
* `src/gbinder_eventloop.c`: 26/29 functions, 149/157 lines. Not cited: gbinder_eventloop_glib_timeout_cast, gbinder_eventloop_glib_callback_source, gbinder_eventloop_glib_cleanup
* `src/gbinder_fmq.c`: 21/23 functions, 491/498 lines. Not cited: gbinder_fmq_get_grantor_descriptor, gbinder_fmq_get_descriptor
* `src/gbinder_io.c`: 23/25 functions, 338/351 lines. Not cited: (macro), (macro)
* `src/gbinder_ipc.c`: 60/85 functions, 1264/1417 lines. Not cited: gbinder_ipc_looper_tx_ref, gbinder_ipc_looper_ref, gbinder_ipc_looper_start, gbinder_ipc_looper_remove_primary, gbinder_ipc_looper_remove_blocked, gbinder_ipc_looper_count_primary, gbinder_ipc_looper_can_loop, gbinder_ipc_tx_handler_new, gbinder_ipc_invalidate_local_object_locked, gbinder_ipc_invalidate_remote_handle, gbinder_ipc_priv_from_object_registry, gbinder_ipc_from_object_registry, gbinder_ipc_object_registry_ref, gbinder_ipc_object_registry_unref, gbinder_ipc_object_registry_get_local, gbinder_ipc_tx_internal_cast, gbinder_ipc_tx_custom_cast, gbinder_ipc_tx_custom_exec, gbinder_ipc_name, gbinder_ipc_object_registry, gbinder_ipc_io, gbinder_ipc_protocol, gbinder_ipc_set_max_threads, gbinder_ipc_init, gbinder_ipc_class_init
* `src/gbinder_local_object.c`: 25/40 functions, 269/368 lines. Not cited: gbinder_local_object_create_reply, gbinder_local_object_handle_later, gbinder_local_object_new, gbinder_local_object_new_reply, gbinder_local_object_add_weak_refs_changed_handler, gbinder_local_object_add_strong_refs_changed_handler, gbinder_local_object_remove_handler, gbinder_local_object_can_handle_transaction, gbinder_local_object_handle_transaction, gbinder_local_object_handle_looper_transaction, gbinder_local_object_handle_decrefs, gbinder_local_object_handle_release, gbinder_local_object_set_stability, gbinder_local_object_init, gbinder_local_object_class_init
* `src/gbinder_local_reply.c`: 21/24 functions, 147/156 lines. Not cited: gbinder_local_reply_output_cast, gbinder_local_reply_data, gbinder_local_reply_contents
* `src/gbinder_local_request.c`: 22/24 functions, 166/172 lines. Not cited: gbinder_local_request_output_cast, gbinder_local_request_data
* `src/gbinder_log.c`: 0/1 functions, 0/9 lines. Not cited: gbinder_log_init
* `src/gbinder_proxy_object.c`: 12/15 functions, 209/228 lines. Not cited: gbinder_proxy_object_converter_cast, gbinder_proxy_object_init, gbinder_proxy_object_class_init
* `src/gbinder_reader.c`: 36/42 functions, 538/588 lines. Not cited: gbinder_reader_skip_buffer, gbinder_reader_read_hidl_vec1, gbinder_reader_read_string16_utf16, gbinder_reader_skip_string16, gbinder_reader_get_data, gbinder_reader_copy
* `src/gbinder_remote_object.c`: 9/15 functions, 140/176 lines. Not cited: gbinder_remote_object_ipc, gbinder_remote_object_is_dead, gbinder_remote_object_add_death_handler, gbinder_remote_object_remove_handler, gbinder_remote_object_init, gbinder_remote_object_class_init
* `src/gbinder_remote_reply.c`: 11/17 functions, 85/126 lines. Not cited: gbinder_remote_reply_new, gbinder_remote_reply_free, gbinder_remote_reply_set_data, gbinder_remote_reply_ref, gbinder_remote_reply_unref, gbinder_remote_reply_copy_to_local
* `src/gbinder_remote_request.c`: 17/19 functions, 173/194 lines. Not cited: gbinder_remote_request_new, gbinder_remote_request_copy_to_local
* `src/gbinder_rpc_protocol.c`: 15/18 functions, 145/159 lines. Not cited: gbinder_rpc_protocol_value_map, gbinder_rpc_protocol_exit, gbinder_rpc_protocol_by_name
* `src/gbinder_servicemanager.c`: 37/50 functions, 613/700 lines. Not cited: gbinder_servicemanager_watch_new, gbinder_servicemanager_watch_free, gbinder_servicemanager_exit, gbinder_servicemanager_new, gbinder_servicemanager_new_local_object, gbinder_servicemanager_new_local_object2, gbinder_servicemanager_device, gbinder_servicemanager_list_sync, gbinder_servicemanager_remove_handler, gbinder_defaultservicemanager_new, gbinder_hwservicemanager_new, gbinder_servicemanager_init, gbinder_servicemanager_class_init
* `src/gbinder_servicemanager_aidl.c`: 12/15 functions, 133/169 lines. Not cited: gbinder_servicemanager_aidl_init, gbinder_servicemanager_aidl_finalize, gbinder_servicemanager_aidl_class_init
* `src/gbinder_servicemanager_aidl2.c`: 2/4 functions, 16/22 lines. Not cited: gbinder_servicemanager_aidl2_init, gbinder_servicemanager_aidl2_class_init
* `src/gbinder_servicemanager_aidl3.c`: 3/5 functions, 65/74 lines. Not cited: gbinder_servicemanager_aidl3_init, gbinder_servicemanager_aidl3_class_init
* `src/gbinder_servicemanager_aidl4.c`: 1/3 functions, 28/36 lines. Not cited: gbinder_servicemanager_aidl4_init, gbinder_servicemanager_aidl4_class_init
* `src/gbinder_servicemanager_hidl.c`: 13/15 functions, 257/274 lines. Not cited: gbinder_servicemanager_hidl_init, gbinder_servicemanager_hidl_class_init
* `src/gbinder_servicename.c`: 7/7 functions, 88/88 lines
* `src/gbinder_servicepoll.c`: 10/13 functions, 101/119 lines. Not cited: gbinder_servicepoll_ref, gbinder_servicepoll_manager, gbinder_servicepoll_class_init
* `src/gbinder_system.c`: 3/5 functions, 12/18 lines. Not cited: gbinder_system_open, gbinder_system_mmap
* `src/gbinder_writer.c`: 54/68 functions, 809/909 lines. Not cited: gbinder_writer_get_data, gbinder_writer_append_int32, gbinder_writer_append_int64, gbinder_writer_append_float, gbinder_writer_append_double, gbinder_writer_append_string8_len, gbinder_writer_append_string16, gbinder_writer_append_string16_len, gbinder_writer_data_append_string16, gbinder_writer_append_string16_utf16, gbinder_writer_append_fd, gbinder_writer_append_parcelable, gbinder_writer_append_local_object, gbinder_writer_append_remote_object

Together 7749 of 8727 lines of function bodies.
