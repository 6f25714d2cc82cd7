# Formal model of S3QL in Rocq: design

## Method

* The code in /repo is read, not run. Every Gallina definition carries a comment with the file and
  lines it models and says where it simplifies.
* Files in `rocq/theories`: `XModel.v` (model of the code), `XSpec.v` (independent specification,
  where it needs more than a line), `XProofs.v` and similar (lemmas), `XProps.v` (property theorems, an
  `Example` showing that the hypotheses can be met by a non-trivial case, and `Print Assumptions`).
* Where the code violates a property, a theorem `..._refuted` proves a counterexample in the model, and
  a positive theorem states under which condition the property does hold. The statement in
  `properties.jsonl` then names the exception.
* External functions (ciphers, MACs, compressors, hash functions, servers, clocks) are ordinary
  arguments of the model, and what is assumed about them appears as explicit hypotheses of the theorems.
* Concurrency: one step of a task is what it does between two points where trio may switch tasks;
  theorems quantify over all sequences of steps. Crashes may happen between any two steps.
* Wrong programs: definitions of the model are altered one at a time in a copy, the copy is rebuilt,
  and the theorems that fail are recorded in `seeded/LOG.jsonl`. A change that no theorem noticed led
  to a stronger theorem (recorded as tightened).

## Trusted base

* The Coq 8.16.1 kernel (including its VM for `vm_compute`).
* The correspondence between the model and the Python/C++ code, established by reading.
* What `Print Assumptions` lists: every theorem named in `MANIFEST.json` is "Closed under the global
  context" (no axioms at all; not even those of the standard library).
* Behaviour of software outside /repo as described in the head of each model: trio (scheduling only at
  checkpoints, locks, channels, nurseries, capacity limiters), h11, SQLite (tables, constraints, pages
  written in order), the operating system's file system (rename is atomic, see AtomicModel), and CPython's
  built-ins (int, str, dict, repr, literal_eval, base64, ConfigParser after parsing).

## What is modelled

| Model | Code | Left out |
|---|---|---|
| Metadata, Files, Names | database.py 62-65, 864-1330; _sqlite3ext.cpp 121-197 | SQLite's own page management (any sequence of writes to the file), sqlite locking |
| Mount | mount.py 364-438, 577-614, 725-778; fsck.py 1309-1498; adm.py 511-582; database.py 1266-1340 | two operations at the same time on one file system, contents of the database |
| File, Float | fs.py read, write, truncate, purge 640-700, 900-1080 | concurrency of requests on one file (Conc; block level: BlockCache) |
| BlockCache | block_cache.py | MultiLock and LinkedDict (own models), time stamps, cancellation, partial transfers |
| MultiLock | multi_lock.py | - |
| LinkedDict | _linked_dict.py | - |
| InodeCache | inode_cache.py | times as floating point numbers |
| Fs, FsTree, FsDir | fs.py name space operations, readdir, xattrs, lock_tree, remove_tree; mkfs.py init_tables | permissions (kernel), pickle parsing of control messages, statistics |
| Copy | fs.py copy_tree 504-638 | other requests during the copy |
| Path | common.py 86-143 | type checks |
| Fsck | fsck.py class Fsck 94-1246, common.py inode_for_path | log messages, owner and times, check_objects_temp; main is in Mount |
| Atomic | database.py write_params; local.py write_fh | hardware that does not honour fsync |
| Freeze, Codec | common.py thaw/freeze; utf-8, base64, urllib quote | complex numbers, literal syntax that freeze never writes |
| Comprenc, Bytes, Text | backends/comprenc.py; backends/common.py checksum_basic_mapping | strength of the ciphers, thread pool |
| Local, Escape | backends/local.py; fsck.py escape; common.py escape | permission errors, disk full |
| Retry, Rate | backends/common.py retry, RateTracker; s3c.py _parse_retry_after | floating point rounding of times |
| Delete, Download, Paging, Header | backends/common.py, s3c.py, s3c4.py, swift.py, gs.py: the parts named in the heads of the files | XML and JSON syntax, signatures of requests, other backends (b2, rackspace) |
| Http, Pool, CaseDict | http.py 230-1068 | TLS, proxies, chunked request bodies, other headers |
| Pipeline, Batch | common.py split_by_n, ParallelPipeline; database.py BatchedTransactionManager | - |
| Expire | contrib/expire_backups.py | parsing of dates, deletion |
| Limits | mount.py determine_threads, cache entries; fs.py statfs, extstat | operating system queries |
| Config | authinfo.py, backends/config.py, backends/__init__.py, parse_args.py (URLs, options) | INI syntax, prompts |
| Setup | mkfs.py 116-262, adm.py 145-232, backends/__init__.py 103-184, mount.py 579-619 | local cache directory |
| Verify | verify.py; common.py ParallelPipeline | retries, log messages |
| Upgrade | adm.py 297-310, 353-508; database.py 1295-1331; mount.py 579-619 | the programs of the previous revision |
| ObjId | fsck.py 1113-1171; int() on ASCII | non-ASCII digits, services whose delete does not report missing objects |
| Sign | s3c.py 598-683; s3c4.py 101-118, 160-258; s3.py 92-141; b2ng.py 103-172; http.py 476-500 | format of the Authorization header, Google tokens, Swift |
| Commit | mount.py 825-866; block_cache.py last_write, order of use | contents (BlockCache), termination of the task |
| SwiftToken | swift.py 318-345, 410-465, 939-951 | contents of requests, number of connections, features |
| GsToken | gs.py 319-330, 526-570, 625-660 | several refresh tokens, connections |
| GsUpload | gs.py 341-344, 457-518, 676-732; json.dumps | complex values, JSON of replies, Content-Length |
| Times | fs.py 197-247, 352-377, 640-1015, 1112-1287, 1375-1389 | control file, copy_tree, lock_tree, concurrency, listing of directories, blocks as bytes only |
| Entry | block_cache.py 45-141, 370-378, 453-454; fs.py 985-1000, 1289-1372; common.py 156-164, 398-423; comprenc.py 452-496, 518-558; http.py 94-114; local.py 150-200 | short reads, time of last write |
| Fstab | mount.py 637-686 | the parser of long options (typer) |
| Umount | umount.py 77-233 | output of fuser and ps, MacOS, the contents of the flush |
| Log | logging.py 60-194, 258-312; of Python's logging: isEnabledFor, callHandlers, Handler.handle | formats, rotation of files, excepthook, warnings, wrapping of lines by the terminal |
| Wal | database.py 177-372, 912-1040; mkfs.py 217-236; adm.py 270-273; the part of SQLite's WAL mode named in the head of the file | torn pages, several writers, failing checkpoints, the index (-shm) |
| Clear | adm.py 235-293 | errors when removing local files, progress messages |
| Conc | fs.py 938-1015, 1231-1370, block_cache.py 788-841, one step per block | damaged objects, locking of files while requests are in progress, purge |
| Dial | common.py 545-582, http.py 237-246, 272-309, 343-378, 481-493, s3c.py 108-123, 162-206, 405-437, s3.py 92-164, b2ng.py 60-168, gs.py 231-313, 590-612, swift.py 226-262, 318-405, 565-590, 847-880, swiftks.py 56-244, rackspace.py 21-45 | syntax of storage URLs, urlsplit, JSON, retries, certificates, application default credentials |
| Hdr | s3c.py 444-481, 694-742, swift.py 118-203, b2ng.py 170-191, on top of Header | repeated headers in a response, log messages |
| Cmd, Cp | cp.py 57-98, lock.py 52-58, remove.py 52-66, ctrl.py 60-118, fs.py 281-344 (reading of commands), common.py 284-324 | the checks of ownership, other mount points, what the commands do (C09, C20, C21), permissions |

## Plan per property

* **C01 File contents behave like a flat byte array** - FileIO: blocks as byte lists, read/write/truncate loops as in fs.py; refinement to a flat byte list by induction over the operation list.
* **C02 Truncated bytes never come back** - FileIO: truncate keeps the 'no hidden bytes' invariant; block count modelled both exactly and as the float division of the code (refuted for sizes where it is inexact).
* **C03 A block read returns what was last written to it** - BlockCache: small-step model, one step per code section between two await points; ghost map of last written contents; invariant by induction over steps.
* **C04 Failed uploads do not lose data** - BlockCache with failing uploads: positive for the block being uploaded, refuted for a deduplicated block.
* **C05 Object reference counts are exact** - BlockCache: invariant counting inode_blocks rows.
* **C06 Objects are deleted only when nothing refers to them** - BlockCache: invariant on the deletion queue and fresh ids.
* **C07 No storage object is leaked** - BlockCache: refuted by a schedule; positive under the condition that removal does not overlap the upload.
* **C08 Cache size accounting and limits** - BlockCache: size accounting invariant; eviction loop postcondition.
* **C09 Flush and drop do what they promise** - BlockCache: drop/flush model; refutations for concurrent drops and start_flush.
* **C10 Per-block locking is mutual exclusion without lost wake-ups** - MultiLock: labelled transition system over any number of tasks; invariant and progress.
* **C11 The cache's ordered dictionary is an ordered dictionary** - LinkedDict: heap of nodes as in the code; refinement to a list of pairs with cursors.
* **C12 The inode cache is transparent** - InodeCache: ring buffer + dict + table; refinement to a map.
* **C13 Directory entries are a function of (directory, name)** - Fs: SQL tables as lists of rows/finite maps; every namespace operation; invariant over histories.
* **C14 Link counts are exact** - Fs: invariant linking inodes.refcount with contents rows.
* **C15 Name reference counts are exact** - Fs: invariant for entry operations; refuted for setxattr/removexattr.
* **C16 Extended attributes are a map, and only a map** - Fs: xattr map refinement; refuted for removexattr on a missing attribute.
* **C17 Directory listing is complete and duplicate-free** - Readdir: continuation by name id; induction over the calls with interleaved changes.
* **C18 A locked (immutable) tree cannot be changed** - Fs: frame theorem for locked inodes, refuted for removal/rename of locked entries in an unlocked parent.
* **C19 Fail-safe mode is read-only** - Fs: frame theorem for every operation.
* **C20 Tree copies are faithful snapshots** - Copy: the queue algorithm of copy_tree; isomorphism between source and copy, frame for everything else, reference counts; induction over the queue.
* **C21 Tree locking and removal reach everything** - TreeOps: queue algorithms over the contents table.
* **C22 Open files survive removal, closed ones do not leak** - Fs: open_inodes accounting; refuted for failing unlink/rmdir/rename.
* **C23 Paths and inodes correspond** - Paths: tree model, round trip.
* **C24 Uploaded metadata can be downloaded again, bit for bit** - Metadata: block versions, upload/download; induction over histories.
* **C25 Old metadata backups stay restorable** - Metadata: expire_objects.
* **C26 No modified metadata block is missed by an incremental upload** - Metadata: tracker; refuted for holes, positive for hole-free histories.
* **C27 The file system is never mounted with stale or foreign metadata** - MountProto: machines with crash points; invariant; refuted for interrupted restore-metadata.
* **C28 A crashed file system is repairable by the advertised procedure** - MountProto: refuted for the crash between write_params and upload_params at unmount; positive elsewhere.
* **C29 Local state files are replaced atomically** - AtomicFile: file system with rename; crash at any step.
* **C30 Basic mappings survive serialisation** - Freeze, Codec: repr and the part of literal_eval that reads it, base64, utf-8; round trip.
* **C31 Stored data can be read back** - Comprenc: framing, cipher and compressor as abstract invertible functions (Section variables, discharged into hypotheses).
* **C32 Corrupted or truncated data is never returned as good** - Comprenc: any byte string accepted by decrypt_fh equals an encryption output, given MAC unforgeability as a hypothesis.
* **C33 Objects cannot be swapped or their metadata forged** - Comprenc: _verify_meta decision logic.
* **C34 The authenticated encoding of metadata is unambiguous** - Checksum: injectivity for NUL-free text; refuted in general.
* **C35 Distinct keys are distinct files in the local backend** - LocalBackend: escape/unescape and key-to-path.
* **C36 Local backend stores what it is given** - LocalBackend: object file format and map refinement.
* **C37 Local backend listing is complete** - LocalBackend: list with directory pruning; refuted for long data prefixes.
* **C38 Bulk deletion reports precisely what is left** - Delete: local, parallel, s3c4 and swift deletion against any server.
* **C39 Retries are faithful and bounded** - Retry: loop over any stream of outcomes with a clock.
* **C40 A retried download starts over** - Download: file with position, any sequence of attempts; refuted for gs and fetch.
* **C41 Object metadata survives the HTTP header encoding** - Header, Codec: chunking, quoting, checksum, extraction; refuted for spaces at chunk borders. Utf8Props: decoding is the exact inverse of encoding.
* **C42 Paged listings are complete** - Paging: marker based listing against any server.
* **C43 A request body is sent exactly as announced** - HttpBody: state machine of pending/remaining bytes.
* **C44 The connection pool never shares or overcommits connections** - Pool: state machine.
* **C45 Parallel pipelines process every item exactly once** - Pipeline: transition system.
* **C46 fsck leaves a consistent database** - Fsck: one function per check over tables; postconditions and preservation.
* **C47 fsck preserves data that was written before the crash** - Fsck: refuted.
* **C48 Rescued entries get fresh names** - Fsck: resolve_free.
* **C49 After fsck every directory is reachable from the root** - Fsck: check_loops on a parent graph.
* **C50 Verification reports exactly the damaged objects** - Verify: the check of one object, the parallel workers as a transition system over any schedule, the reports.
* **C51 Backup expiration keeps a backup for every configured age range** - Expire: process_backups over every history of backups and runs.
* **C52 Sequential batching helpers neither lose nor duplicate** - Common: split_by_n.
* **C53 Changing the passphrase never locks the user out** - Setup: storage with crash points, encryption of Comprenc, master key text.
* **C54 Creating a file system never overwrites one** - Setup, Fresh: mkfs with crash points, mounting the result; the initial tables.
* **C55 Configuration sections combine predictably** - Config: merging of sections, interpolation, validation, backend options, storage URLs.
* **C56 Thread, cache and quota arithmetic stays within bounds** - Limits: threads, cache entries, statfs, extstat on unbounded integers with explicit 64-bit packing.
* **C57 Moving a directory never detaches part of the tree** - Fs: reachability invariant.
* **C58 Case-insensitive headers** - Headers: map refinement.
* **C59 The metadata upload task produces consistent snapshots under concurrent modification** - Metadata: interleaving of writes and upload passes.
* **C60 Backend keys and escapes in messages and paths are reversible where required** - Escapes: injectivity; refuted for fsck.escape.
* **C61 The block cache never deadlocks** - BlockCache: every task that waits can eventually run; a measure on the tasks.
* **C62 Requests do not crash the mount** - Fs: no modelled request ends with an uncaught exception; refuted for unlink of the control file.
* **C63 The rate of temporary errors is exact** - Rate: the ring of ten buckets against the list of all events.
* **C64 An interrupted upgrade loses nothing and can be resumed** - Upgrade: local copy and storage as a record, the four changes with crash points, and what the programs of this version decide afterwards.
* **C65 fsck recognises exactly the missing and the unreferenced data objects** - ObjId: python's int() on the rest of the name, listing and storage as sets; names are read back, exact result by set extensionality.
* **C66 Signed requests are accepted and refer to the object that was meant** - Sign: the requests of all callers, what send_request does to them, and the signatures; the specification recomputes the signature from the wire as documented for the service. Encoded values contain no separators, so that joining is injective.
* **C67 Modified blocks are uploaded after the delay** - Commit: the cache as list in the order of use with the cursor of the iteration, time stamps, and all other users of the cache as interleaved events; everything in front of a block was accessed before it.
* **C68 Expired access tokens are renewed once and not used again** - SwiftToken, GsToken: tasks as automata whose steps are the code between two places where they wait; invariant over all interleavings with the trace of what is sent and received.
* **C69 Objects uploaded to Google Storage arrive unaltered** - GsUpload: readers of JSON strings and objects (RFC 8259), of multipart requests and of paths as specification; escapes are read back character by character, the JSON text contains no line break, repr and literal_eval from Freeze.
* **C70 Time stamps tell what was changed** - Times: the specification lists which inodes a request marks for update and what `unchanged` means; per request: unmarked inodes keep everything, marked ones get the time; then induction over histories (inode numbers are never reused).
* **C71 Cached blocks are arrays of bytes wherever their position was left** - Entry: invariant `true_` (remembered position and size are those of the file), every access refines a byte-by-byte specification; loops by induction on what is left to read; writes of the system accept a prefix.
* **C72 Mount options given as in fstab mean the same as long options** - Fstab: the relation `means` gives each option its meaning; the loop inserts at a fixed position in reverse order, so the expansions appear in order.
* **C73 umount.s3ql returns after the daemon has finished** - Umount: transition system of umount.s3ql and its environment; invariant: while the daemon lives its number shows its command line, which is the one remembered, and the successful end is not reached.
* **C74 Messages reach the console and the log file** - Log: invariant of the caches of LogFilter (ids seen, time of the latest message written per kind) over all questions to it; terminal as independent specification, simulation of ConsoleHandler; effective level by induction on the name of the logger.
* **C75 The local database survives crashes, snapshots are consistent, downloads are faithful** - Wal: database as map of pages, log as list of transactions; a transaction makes of a page something fixed or leaves it, hence repeating the log on a partly updated file gives the same; invariant: history = h0 ++ log, and each page of the file is that of the state after h0 and some synced part of the log.
* **C76 s3qladm clear deletes the whole file system and nothing else** - Clear: invariant of the loop over pages: an object below the prefix that still exists is in the batch, was created by others, or is still to be listed.
* **C77 Requests handled at the same time behave as if handled one after the other** - Conc: invariant that relates blocks to the arrays except for bytes that a write in progress has already stored or that a truncation in progress has yet to remove.
* **C78 Connections: right server, encryption, proxy** - DialModel: for each backend the messages sent (TCP peer, TLS name, final target, contents) as a function of options, environment and answers of the servers. DialSpec: who may be the storage server, which credentials it may see, syntax of proxy variables, way through the proxy. Lemma run_parts: every connection of a session is a login or a storage connection with the stated properties; the theorems follow.
* **C79 Metadata is found in the headers it was put in; old Backblaze objects stay readable** - HdrModel: tables of headers as maps; the numbered names ('%03d'), mark of the format and checksum around the texts of HeaderModel; the b2 backend with its prefix as state. HdrSpec: what a server keeps of the headers. Lemmas: the names are injective (value10), hence the parts are found in order and the search ends (pigeonhole).
* **C80 Commands for a mounted file system arrive as they were meant** - CmdModel: the texts sent (repr of bytes and strings, '%d'), the parser of the file system, path resolution in a tree with links, s3qlrm and s3qllock. CmdSpec: proper trees, the entry a command refers to. Lemmas: each literal is read back with anything that follows; a walk to a directory, extended by '..', ends in the directory that has its entry. CpModel: s3qlcp with os.path.abspath, in a tree of several file systems; without '..' in the target, or without links on the way, the lexical parent is the real one.

## Findings

Counterexamples in the model, as theorems. Each names what the code does; the conditions under which
the property holds are in the positive theorems beside them.

File contents
* `truncated_bytes_return_refuted`: block counts are computed with float division, so at 2^54 bytes a block survives truncation.
* `empty_write_extends_refuted`: a write of zero bytes past the end extends the file.

Block cache and locks
* `deduplicated_block_lost_refuted`: a block whose content is being uploaded for another block is lost if that upload fails.
* `failed_upload_leaks_refuted`: an upload that stores the object and then reports a failure leaves an object nobody knows.
* `start_flush_unregistered_refuted`, `flush_not_stored_refuted`: flushing returns before the content is stored.
* `concurrent_drop_refuted`: two drop() calls at a time corrupt the cache limit.
* `cancelled_release_refuted`: a cancelled release leaves the key locked for ever.
* `kept_inode_refuted`: an inode object kept across a call that expires it loses its changes.

Name space
* `name_count_refuted`, `removexattr_refuted`: attribute calls leave wrong name reference counts; removing an attribute that does not exist changes counts.
* `rename_same_refuted`: renaming onto another link of the same file.
* `lookup_count_refuted`: failing calls leak references to inodes.
* `rename_into_removed_refuted`: renaming into a directory that was removed but is still open detaches the tree.
* `locked_link_count_refuted`: the link count of a locked file changes.
* `unlink_control_refuted`: unlinking the control file ends the file system with an exception.
* `remove_tree_race_refuted`: a file created during s3qlrm is lost.
* `deep_path_refuted`, `root_path_refuted`: get_path gives up on deep trees and on the root.
* `copy_own_xattr_refuted`, `copy_into_locked_refuted`, `copy_into_removed_refuted`, `copy_collision_refuted`: s3qlcp ignores attributes of the source directory, locks and removed targets.

Metadata and mounting
* `gap_after_shrink_refuted`, `gap_filled_later_refuted`: blocks that the database file skips while growing are not uploaded.
* `foreign_name_refuted`: names with other widths are read as metadata objects too.
* `split_brain_refuted`, `interrupted_restore_refuted`, `restored_cache_refuted`, `crash_at_unmount_refuted`: stale or foreign metadata is mounted in these exact situations; a crash between the last two writes of unmounting cannot be repaired as advertised.
* `object_power_refuted`: the local backend does not synchronise objects; power failure can leave a damaged one.

Encryption and serialisation
* `key_separation_refuted`: the data key of the object `x` + "meta" is the metadata key of the object `x` written at the same time.
* `encoding_refuted`: mappings with NUL characters have the same checksum.
* `thaw_error_refuted`, `thaw_lenient_refuted`: thaw ends with other exceptions than ThawError, and accepts invalid base64.
* `headers_space_refuted`, `headers_inf_refuted`: metadata is lost in HTTP headers if a chunk begins or ends with a space; infinite floats cannot be read back.

Backends
* `special_names_refuted`, `shared_temp_refuted`, `short_write_refuted`, `long_prefix_refuted`: local backend: names "", "." and "..", simultaneous uploads of one key, short writes, long listing prefixes.
* `fsck_escape_refuted`: the escape function of fsck is not injective.
* `s3_exception_refuted`, `s3_missing_refuted`, `s3_hidden_error_refuted`, `swift_abort_refuted`: bulk deletion reports other keys than those left.
* `fetch_tail_refuted`, `gs_resume_refuted`, `gs_torn_refuted`: retried downloads leave bytes of an earlier attempt, or mix metadata and data of two versions.
* `swift_short_page_refuted`, `gs_empty_page_refuted`: listings end early.
* `refused_close_refuted`, `broken_idle_refuted`, `overlong_body_refuted`, `unsolicited_continue_refuted`: states of HTTP connections after errors of the server.
* `split_zero_refuted`, `still_clock_refuted`: batch helpers with batch size 0, or with a clock that stands still.

fsck
* `name_capture_refuted`, `attribute_rename_refuted`, `attribute_hang_refuted`, `lost_found_refuted`, `second_check_refuted`: a check that repairs one table damages another or does not end.
* `cache_lost_refuted`: cached blocks are lost if a row tells a wrong hash.
* `long_name_refuted`: more than 1000 entries of the same long name.
* `root_loop_refuted`, `deep_tree_refuted`: loops through the root; deep trees end the check.

Tools
* `newest_removed_refuted`, `all_removed_refuted`: expire_backups removes the newest backup, or all, for some configurations.
* `threads_no_core_refuted`, `cache_entries_refuted`, `statfs_stale_refuted`, `extstat_overflow_refuted`: limits and statistics.
* `default_overrides_refuted`, `percent_refuted`, `canonical_refuted`, `canonical_root_refuted`: configuration and storage URLs.
* `backup_copy_refuted`: the backup copies of the key cannot replace s3ql_passphrase.
* `recover_wrong_refuted`: recover-key accepts any key of the right length.
* `enter_refuted`: a passphrase ending in white space differs between terminal and redirected input.
* `plain_leftover_refuted`: mkfs --plain over a left s3ql_passphrase.
* `params_lost_refuted`: mkfs does not notice a file system that lost s3ql_params.
* `upgrade_stuck_refuted`, `upgrade_again_refuted`: s3qladm upgrade interrupted between local and remote parameters cannot be resumed (KeyError; every other program says to run upgrade); the same KeyError for upgraded file systems that were used since.
* `verify_abort_refuted`, `metadata_only_refuted`, `same_file_refuted`: s3ql_verify ends early at an object stored without encryption or a row without hash; does not look at the data unless told to; one file for both reports.

- C65 `alias_hides_refuted`, `alias_crash_refuted`: data objects are recognised by `int()` of the rest of their name, so that
  a foreign `s3ql_data_01` counts as object 1 and hides its loss; next to `s3ql_data_1`, or with a number beyond 64 bits, it
  ends fsck with an exception (fsck.py 1127-1136).

- C66 `nossl_refuted`: with `no-ssl` and port 80 (the default then) the signed host name has `:80` and the sent one has not
  (s3c4.py 173-174 against http.py 484-485), so a service using signature version 4 rejects every request. `ipv6_refuted`: the same with an IPv6 address as host, which
  is sent with brackets and signed without. `addressed_refuted`:
  the bucket is left out of the path if the host name merely begins with it (s3c.py 653), for example
  `s3c://backup.example.com/backup`; requests then refer to another bucket.

- C67 `starved_refuted`: the manual says that blocks are uploaded when they were not modified for `--dirty-block-upload-delay`.
  The iteration is in the order of the last access and ends at the first block written recently (mount.py 847-851), so a modified
  block that is read while another one is written between the iterations is never uploaded.

- C68 `gs_renewal_refuted`, `gs_herd`: gs.py is_temp_failure removes the cached token after any 401, also if the rejected token was
  an older one (swift.py compares). If n requests in flight share a token that is rejected, up to n new tokens are requested, each
  discarding the one before although it is valid; the comment at gs.py 176 says that their number is limited.

- C68 `swift_host_refuted`: a request that waits for a connection of the old pool while another task logs in again is sent to the old
  host with the token and path of the new login (swift.py 344, 442). Matters only if the storage URL changes between logins.

- C69 `wrap_readable_refuted`: `_wrap_user_meta` stores `repr(val)` without checking that it can be read back (freeze_basic_mapping
  does check). An object with a float inf or nan in its metadata is uploaded, and reading it raises CorruptedObjectError.

- C70 `truncate_refuted`: `setattr` with a size (truncate, ftruncate) sets st_ctime but not st_mtime (fs.py 946-1015; POSIX demands both if
  the size changes). Programs that compare modification times do not see that the file was cut. Opening with O_TRUNC does set it.
- C70 `failed_write_refuted`: `write` sets the times only after all blocks (1261-1287); if a later block cannot be retrieved, the bytes of
  the earlier ones are changed, and size, st_mtime and st_ctime stay.
- C70 `bad_time_refuted`: `setattr` assigns mode, uid, gid and atime to the cached inode before it finds that a time cannot be stored and
  raises EINVAL (960-1000); these changes stay, without a new st_ctime.

- C71 `entry_short_refuted`, `after_short_refuted`: CacheEntry.fh is opened without buffering (block_cache.py 82), and `write` ignores the
  number of bytes that were accepted (121-126). If the disk of the cache gets full in the middle of a write, the rest is lost without
  an error; `pos` is ahead of the file, so that `seek` is left out and the next write in sequence is stored at the wrong place.
- C71 `local_short_refuted`: (see also C36 `short_write_refuted`) the same in local.py 180-190. If the last part of an object is accepted only in part, the truncated object
  is renamed into place and the upload counts as successful. The size that is returned would tell (`local_size`), but nothing compares it.
- C71 `empty_write_refuted`: an empty write behind the end of the file changes `size` but not the file. fs.py never does this.

- C72 `value_refuted`, `value_crash`: `opt.split('=')` is unpacked into two (mount.py 650); `-o backend-options=tcp-timeout=20` raises
  ValueError. Backend options cannot be given in fstab.
- C72 `empty_option_refuted`: `-o allow-other,` or `-o a,,b` inserts `--`; options after it are taken as positional arguments.
- C72 `last_refuted`, `second_refuted`: `-o` as last argument raises IndexError; a second `-o` is left for the parser, which rejects it.

- C73 `umount_failed_refuted`: umount.s3ql says that it returns only after all data has been uploaded, but looks only whether the process of the
  daemon still exists (umount.py 150-174). If the daemon fails during the final upload, the exit status of umount.s3ql is 0.
- C73 `umount_hidden_refuted`: from another PID namespace or with hidepid, `os.kill` or `/proc/<pid>/cmdline` say that there is no such process,
  and umount.s3ql returns while the daemon is still uploading. `umount_reuse_refuted`: a process with the same number and command line is waited for.

- C74 `file_refuted` (exactly: `once_not_filed`, `rate_not_filed`): the same LogFilter object is added to the console and to the log file
  (logging.py 161-167). The console is asked first, so the file is told that the message has been written already. Messages with LOG_ONCE (missing
  features of a Swift server, the proxy used) are never in ~/.s3ql/*.log while there is a console, progress messages only at the end.
- C74 `boot_refuted`: time.monotonic() starts at the start of the system, and 0 stands for "not yet" (logging.py 305-308).
- C74 `leftover_refuted`: the line is not cleared after the carriage return (logging.py 82), "1.0 GiB" after "1023.9 MiB" leaves its end.

- C75 `download_crashed_refuted` (exactly: `download_exact`): download_metadata writes into <cachepath>.db (database.py 936-939), checks the checksum of that
  file and then opens it (1040). If the previous session crashed, <cachepath>.db-wal is still there; no program removes it. Example: the
  computer crashes while the file system is mounted, fsck.s3ql is run on another one with the remote metadata, then the file system is mounted on the
  first one again: the cached metadata is outdated and downloaded anew, and SQLite applies the old log to the new file, silently, after its checksum was found
  to be correct. `download_cleared_refuted`: s3qladm clear removes .db, .params and -cache, but not the log. (Mount, Upgrade and Metadata take the database as one
  object, i.e. without such a log.)
- C75 `lost_refuted`: with synchronous = NORMAL the transactions since the last checkpoint may be lost in a power failure (intended by the choice of the mode).

- C76 `clear_hidden_refuted`: "DELETE ALL DATA ... all stored objects": files with # in their names in the local backend (left by interrupted uploads, with data) and
  temporary objects of the Swift backend are never listed, hence never deleted.
- C76 `clear_failed_refuted`: s3ql_data_* comes before s3ql_metadata_*, s3ql_params and s3ql_passphrase in the listing. After an interrupted clear the
  rest is a file system that is marked as clean and can be mounted, without its data.

- C77 `conc_writes_refuted`, `conc_read_refuted`, `conc_truncate_refuted`, `conc_read_truncate_refuted`: the file system itself does not order requests for the same range of a file.
  In particular `write` sets the size after the last block, so that a truncation in between cuts off data without cutting off the file. The kernel (inode lock, page locks) keeps this
  from happening except for reads during a truncation.

- C78 `dial_proxy_swift_refuted`, `dial_proxy_b2_refuted`: "All storage backends respect http_proxy (for plain HTTP connections) and https_proxy (for SSL connections)"
  (rst/backends.rst 20). swift.py 238 always reads https_proxy, since the TLS context is created even with no-ssl; b2ng.py 120 passes no proxy to the connection for the login.
- C78 `dial_port_refuted`, `dial_port_b2_refuted`: for the same reason swift.py 254-258 (and swiftks, rackspace) take 443 as the default port with no-ssl, and b2ng.py 120 always 443:
  the password is sent unencrypted to a port where TLS is expected, so that no-ssl never works there, but reveals the password.
- C78 `dial_checksum_refuted`: swift.py 573 asks whether there is a TLS context, which there always is; hence uploads over plain HTTP carry no Content-MD5 and the ETag is not compared.
- C78 `dial_http_refuted`: the authentication server decides whether the storage is contacted with TLS (documented for no-ssl, rst/backends.rst 216-221); the user cannot insist on it.

- C80 `cmd_rm_link_refuted`: remove.py 57 takes `name/..` for the parent of `name`. If `name` is a symbolic link to a directory, this is the parent of the directory
  the link leads to, while the name sent is that of the link (66): with a link l to d/x, `s3qlrm l` removes the tree d/l, if it exists, although nothing the user named is there.
- C80 `cmd_cp_link_refuted`: cp.py 66 takes os.path.dirname(os.path.abspath(target)) for the parent of the target. abspath removes `link/..` without looking at the
  link, os.mkdir (85) follows it. The check of st_dev (77) is then made for a directory other than the one that gets the target; if this is on another file
  system, its inode number is sent to S3QL (98), where it belongs to another inode or to none.

Noticed while reading, not modelled: fsck's main compares sequence numbers after replacing the remote
parameters by the local ones (the check can never fail).

## Assumptions

`Print Assumptions` of every theorem in MANIFEST.json: `Closed under the global context`. The commands are at the
end of each `XProps.v`. Libraries used: the Coq standard library and std++ (Flocq is not needed: binary64 division is
modelled on integers). Loading ssreflect's files brings module parameters of `Coq.ssr.ssrunder.Under_rel` into
the environment; no theorem depends on them.
