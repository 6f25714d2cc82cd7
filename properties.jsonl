{"id": "C01", "title": "File contents behave like a flat byte array", "statement": "Reading any range of a file returns exactly the bytes that a flat, zero-filled byte array would hold after the same sequence of writes and truncations; reads stop at the file size, and the reported size is the size of that array.", "quantifier": "every block size, every finite sequence of write/truncate/read calls with any offsets, lengths and contents", "why_tests_cant": "a test picks a few offsets and block sizes; the claim is about all alignments of all writes against all block boundaries", "anchors": ["src/s3ql/fs.py: Operations.read, Operations.write, Operations._readwrite, Operations.setattr", "src/s3ql/block_cache.py: CacheEntry"]}
{"id": "C02", "title": "Truncated bytes never come back", "statement": "After a file is shrunk and then extended again (by truncate or by writing past the end), every byte between the shrunk size and the newly written data reads as zero, and every block wholly beyond the new size is released.", "quantifier": "every file content, every old and new size and every later extension", "why_tests_cant": "depends on the block-count arithmetic for every size, including sizes where floating point division is inexact", "anchors": ["src/s3ql/fs.py: Operations.setattr, Operations._purge_inode"]}
{"id": "C03", "title": "A block read returns what was last written to it", "statement": "Opening block n of a file yields the content left by the last modification of that block, whatever evictions, uploads, downloads, deduplications and cache drops happened in between, as long as no upload failed and the storage returns what was stored.", "quantifier": "every interleaving of reads, writes, evictions, upload completions and cache drops over all inodes and blocks", "why_tests_cant": "the number of schedules is unbounded; tests exercise a handful", "anchors": ["src/s3ql/block_cache.py: BlockCache.get, _get_entry, upload_if_dirty, _do_upload, evict"]}
{"id": "C04", "title": "Failed uploads do not lose data", "statement": "If storing a block fails, the block that was being stored stays modified in the cache and its content is still returned by later reads; the same must hold for every other block that was deduplicated against it.", "quantifier": "every interleaving of block operations with upload failures at any point", "why_tests_cant": "needs a failure at one specific moment of a concurrent deduplication", "anchors": ["src/s3ql/block_cache.py: BlockCache._do_upload, upload_if_dirty"]}
{"id": "C05", "title": "Object reference counts are exact", "statement": "At every quiescent point the reference count stored for an object equals the number of file blocks that point to it, every referenced object has a row, and no two objects carry the same content hash.", "quantifier": "every history of block writes, uploads, removals, truncations and tree copies", "why_tests_cant": "an invariant over arbitrarily long histories", "anchors": ["src/s3ql/block_cache.py: upload_if_dirty, remove, _deref_obj", "src/s3ql/fs.py: Operations.copy_tree"]}
{"id": "C06", "title": "Objects are deleted only when nothing refers to them", "statement": "A storage object is only scheduled for deletion when no block of any file refers to it, and no block can come to refer to it afterwards; object ids are never reused.", "quantifier": "every interleaving of writes, removals, deduplication and the background deletion task", "why_tests_cant": "a premature deletion needs a particular race; its absence is a statement about all races", "anchors": ["src/s3ql/block_cache.py: _deref_obj, _removal_task, upload_if_dirty", "src/s3ql/database.py: create_tables"]}
{"id": "C07", "title": "No storage object is leaked", "statement": "When all uploads and deletions have finished, every stored data object still has a database row (equivalently: removing the last reference to a block removes the stored object, also when the removal overlaps with the upload).", "quantifier": "every interleaving of removal with upload start and completion", "why_tests_cant": "the leak needs removal to start while the upload is in flight", "anchors": ["src/s3ql/block_cache.py: _deref_obj, _do_upload"]}
{"id": "C08", "title": "Cache size accounting and limits", "statement": "The accounted cache size equals the sum of the sizes of the cached blocks at every quiescent point, and after an eviction that was not interfered with the cache is within the configured number of entries and bytes.", "quantifier": "every history of cache operations, every limit", "why_tests_cant": "an invariant over unbounded histories", "anchors": ["src/s3ql/block_cache.py: CacheDict, BlockCache.get, evict, remove"]}
{"id": "C09", "title": "Flush and drop do what they promise", "statement": "After flush(inode) returns every block of the inode that existed before the call is stored and clean; after drop() returns the cache is empty, and the limits are the configured ones - also when several callers drop concurrently; after start_flush(inode) returns all dirty blocks of the inode are registered in the database.", "quantifier": "every state and every interleaving of concurrent flush/drop calls", "why_tests_cant": "the failure needs two overlapping drops or a flush overlapping the hashing phase of an upload", "anchors": ["src/s3ql/block_cache.py: start_flush, flush, drop"]}
{"id": "C10", "title": "Per-block locking is mutual exclusion without lost wake-ups", "statement": "At most one task holds the lock for a given block at any time, a release always lets a waiting task proceed, and tasks waiting for different blocks do not block each other forever.", "quantifier": "every number of tasks and every schedule", "why_tests_cant": "quantifies over all schedules", "anchors": ["src/s3ql/multi_lock.py: MultiLock"]}
{"id": "C11", "title": "The cache's ordered dictionary is an ordered dictionary", "statement": "The linked dictionary behaves like an insertion-ordered map under set, delete, pop, get and move-to-end; iterating while other tasks modify it yields every element that stays in place exactly once, never yields removed elements, and leaves no iteration cursor behind, even when an iteration is abandoned.", "quantifier": "every sequence of operations, any number of simultaneously active iterators", "why_tests_cant": "iterator/mutation interleavings are unbounded", "anchors": ["src/s3ql/_linked_dict.py: LinkedDict"]}
{"id": "C12", "title": "The inode cache is transparent", "statement": "Reading and modifying inode attributes through the cache is indistinguishable from reading and modifying the database table directly; after a flush the table holds the cached attributes; at most CACHE_SIZE inodes are cached; no modified inode is ever evicted without being written back.", "quantifier": "every sequence of lookups, modifications, creations, deletions, flushes and drops", "why_tests_cant": "depends on eviction order after more than CACHE_SIZE distinct inodes and deletions in between", "anchors": ["src/s3ql/inode_cache.py: InodeCache"]}
{"id": "C13", "title": "Directory entries are a function of (directory, name)", "statement": "For every directory and name there is at most one entry; a lookup returns the inode most recently bound to that name by create, link, rename or symlink and fails with ENOENT after it was removed; calls do not disturb names they do not mention. (Excluded: renaming an entry to itself, which the kernel does not send and which removes the entry; removexattr of a missing attribute, see C16; names of the control file.)", "quantifier": "every history of namespace operations", "why_tests_cant": "an invariant over arbitrary histories", "anchors": ["src/s3ql/fs.py: Operations.lookup, _create, link, rename, _rename, _replace, _remove"]}
{"id": "C14", "title": "Link counts are exact", "statement": "The link count reported for an inode equals the number of directory entries that point to it (plus one for the root directory), and an inode whose count is zero and to which no lookup is outstanding is purged together with its blocks, extended attributes and symlink target; objects no block refers to are dropped.", "quantifier": "every history of create, link, unlink, rename-over, rmdir, forget and close", "why_tests_cant": "an invariant over arbitrary histories with open files", "anchors": ["src/s3ql/fs.py: Operations._create, link, _remove, _replace, forget, _purge_inode"]}
{"id": "C15", "title": "Name reference counts are exact", "statement": "The number of uses recorded for a stored name equals the number of directory entries and extended attributes using it, so that a name disappears exactly when its last user disappears - in every history in which no existing extended attribute is overwritten (the code counts it again, so that the name is never deleted) and no missing one is removed (the code releases a use that does not exist).", "quantifier": "every history of namespace and extended-attribute operations", "why_tests_cant": "an off-by-one shows up only when a name is shared between entries and attributes or an attribute is overwritten", "anchors": ["src/s3ql/fs.py: Operations._add_name, _del_name, setxattr, removexattr"]}
{"id": "C16", "title": "Extended attributes are a map, and only a map", "statement": "getxattr returns the last value set, ENOATTR after removal or if never set; listing returns exactly the names set; setting or removing an attribute never changes any directory entry or any other attribute - except that removing an attribute that does not exist on the inode but whose name is in use elsewhere releases that name (a file of that name can disappear).", "quantifier": "every history of extended attribute and namespace operations", "why_tests_cant": "the violation needs an attribute name that is also used as a file name", "anchors": ["src/s3ql/fs.py: Operations.getxattr, setxattr, removexattr, listxattr"]}
{"id": "C17", "title": "Directory listing is complete and duplicate-free", "statement": "Listing a directory, continued from the returned offsets in any number of steps, returns every name that exists throughout the listing exactly once and no entry that did not exist at some time during the listing, even if other entries are added and removed meanwhile; an empty reply is given only at the end.", "quantifier": "every directory, every way of splitting the listing into calls, every interleaved modification", "why_tests_cant": "quantifies over splits and interleavings", "anchors": ["src/s3ql/fs.py: Operations.readdir"]}
{"id": "C18", "title": "A locked (immutable) tree cannot be changed", "statement": "As long as an inode that has been locked exists, no file system call other than a forced tree removal changes its contents, entries, extended attributes, symlink target or attributes except link count, access and change time; a locked directory that is not empty, and what is in it, cannot be removed; and a rejected call changes nothing but lookup counts. (A locked file can still be linked or unlinked through directories that are not locked.)", "quantifier": "every tree, every history before and after locking", "why_tests_cant": "needs each mutation path checked in each state", "anchors": ["src/s3ql/fs.py: Operations.lock_tree and every modifying operation", "src/s3ql/lock.py"]}
{"id": "C19", "title": "Fail-safe mode is read-only", "statement": "Once the file system has switched to fail-safe mode, every call that would modify it is rejected (with EPERM unless an earlier check reports another error) and every call leaves all metadata except access times unchanged and does not reset the flag; only the deletion of inodes without entries and references, and tree operations started before, continue.", "quantifier": "every state and every call", "why_tests_cant": "one forgotten check in one call suffices", "anchors": ["src/s3ql/fs.py: failsafe checks"]}
{"id": "C20", "title": "Tree copies are faithful snapshots", "statement": "After copying a directory tree into a directory that exists, is in the tree and has no name in common with the source, the target holds a tree isomorphic to the source: same names, same attributes (copies are not locked), same contents, same symlink targets and extended attributes (except those of the source directory itself), hard links within the tree preserved, and no block is shared without being counted. Nothing else changes. The copy always ends. A target that is locked, removed but still open, or has a name in common with the source is not rejected before the copy starts.", "quantifier": "every source tree, every block sharing", "why_tests_cant": "quantifies over all trees", "anchors": ["src/s3ql/fs.py: Operations.copy_tree"]}
{"id": "C21", "title": "Tree locking and removal reach everything", "statement": "Once locking a tree has finished, every inode reachable from the given directory is marked, whatever other calls were handled meanwhile, and the tree stays as it is. Removing a tree terminates and removes exactly the given entry and everything below it and nothing else, or fails without removing anything because of fail-safe mode, a locked parent or a missing entry - provided that no other call removes rows of a chunk it has already read; otherwise a file that has another name may be lost.", "quantifier": "every tree of any depth and breadth, every batch boundary; for locking every interleaving with other calls", "why_tests_cant": "quantifies over all trees, batching boundaries and interleavings", "anchors": ["src/s3ql/fs.py: Operations.lock_tree, remove_tree"]}
{"id": "C22", "title": "Open files survive removal, closed ones do not leak", "statement": "An inode is never purged while the kernel holds a reference to it; references that are held can always be given up; the number of outstanding lookups is accounted exactly, so that the inode is purged when the last reference goes away - unless an unlink, rmdir or rename failed after the lookup, which leaks a count.", "quantifier": "every history of lookup/create/unlink/rename/forget including failing calls", "why_tests_cant": "failing calls in combination with reference counting", "anchors": ["src/s3ql/fs.py: Operations._lookup, unlink, rmdir, rename, forget"]}
{"id": "C23", "title": "Paths and inodes correspond", "statement": "Looking up the path reported for an inode or an entry leads back to it, and looking up a path walks exactly its components, whatever slashes precede or follow it. A path is reported for everything at most 254 levels below the root - not for deeper entries; and the path of the root directory itself is not found.", "quantifier": "every tree, every depth", "why_tests_cant": "quantifies over trees", "anchors": ["src/s3ql/common.py: inode_for_path, get_path"]}
{"id": "C24", "title": "Uploaded metadata can be downloaded again, bit for bit", "statement": "Downloading the metadata for a completed upload yields exactly the database file that was uploaded, or an explicit error - never a different file.", "quantifier": "every sequence of database modifications and (incremental or full) uploads", "why_tests_cant": "depends on which block versions were uploaded in all earlier rounds", "anchors": ["src/s3ql/database.py: upload_metadata, download_metadata, UploadMetadata, DownloadMetadata, first_le_than"]}
{"id": "C25", "title": "Old metadata backups stay restorable", "statement": "Removing old metadata objects never makes one of the retained backups (the most recent ones) impossible to restore, and removes every object that no retained backup needs.", "quantifier": "every upload history, any number of backups kept", "why_tests_cant": "depends on the versions of all blocks in all retained backups", "anchors": ["src/s3ql/database.py: expire_objects"]}
{"id": "C26", "title": "No modified metadata block is missed by an incremental upload", "statement": "Every block of the database file whose content differs from its last uploaded version is marked as modified, for every pattern of file writes and truncations.", "quantifier": "every sequence of writes and truncations of the database file", "why_tests_cant": "the failing pattern needs a shrink followed by growth that leaves a hole", "anchors": ["src/s3ql/_sqlite3ext.cpp: vfstraceWrite, vfstraceTruncate, WriteTracker", "src/s3ql/database.py: UploadMetadata"]}
{"id": "C27", "title": "The file system is never mounted with stale or foreign metadata", "statement": "Whenever a mount proceeds, the metadata and the cached blocks it works with have the current content of the file system, whatever crashed at whatever point and whichever other machines used it before, provided that (1) no other machine is used while one is ahead of the backend (a crash between writing the local and the remote parameters, or a restored backup that has not been checked), (2) restore-metadata is not interrupted and (3) the cache is empty when restore-metadata is used; each of the three conditions is necessary.  A file system that is marked clean can be mounted on every machine.", "quantifier": "every history of mount, periodic upload, unmount, crash (at any step), fsck and backup restoration on any number of machines", "why_tests_cant": "all crash points in all multi-machine histories", "anchors": ["src/s3ql/mount.py: get_metadata, main_async, MetadataUploadTask", "src/s3ql/adm.py: restore_metadata_cmd", "src/s3ql/fsck.py: main_async", "src/s3ql/database.py: read_cached_params, upload_params, write_params"]}
{"id": "C28", "title": "A crashed file system is repairable by the advertised procedure", "statement": "After a crash at any point except between the last two writes of an unmount or check (local, then remote parameters), running fsck (without special options, on the machine that crashed) brings the file system into a state where mounting succeeds, with every modification that had reached the local database.  After a crash at the excepted point neither fsck (without --force) nor mount works.", "quantifier": "every crash point in mount, periodic upload, unmount and fsck", "why_tests_cant": "all crash points", "anchors": ["src/s3ql/fsck.py: main_async", "src/s3ql/mount.py: get_metadata"]}
{"id": "C29", "title": "Local state files are replaced atomically", "statement": "After a crash at any point while the parameter file is written - of the process or of the machine, and after any history of such crashes - the file holds a complete earlier content or the complete new one, and after the call has returned the new one for good. A stored object replaced in the local backend holds, after a crash of the process at any point, the complete old or the complete new content. (It is never synchronised, so that after a power failure it may hold anything.)", "quantifier": "every crash point, every old and new content", "why_tests_cant": "all crash points", "anchors": ["src/s3ql/database.py: write_params", "src/s3ql/backends/local.py: AsyncBackend.write_fh"]}
{"id": "C30", "title": "Basic mappings survive serialisation", "statement": "Serialisation accepts every mapping of strings to strings, bytes, integers, booleans, None and floats that are read back as themselves; deserialising the result gives back the same mapping, for every string including quotes, control characters and lone surrogates. Malformed input need not be reported as a ThawError: a literal that is no mapping raises an AttributeError, and characters outside base64 in a bytes value are skipped.", "quantifier": "every mapping of the supported types, every malformed input", "why_tests_cant": "quantifies over all values", "anchors": ["src/s3ql/common.py: freeze_basic_mapping, thaw_basic_mapping"]}
{"id": "C31", "title": "Stored data can be read back", "statement": "Decrypting and decompressing what was compressed and encrypted yields the original bytes for every content and every chunk size, given that the cipher and the compressor are invertible.", "quantifier": "every content, every chunking, every algorithm", "why_tests_cant": "quantifies over contents and chunk boundaries", "anchors": ["src/s3ql/backends/comprenc.py: encrypt_fh, decrypt_fh, compress_fh, decompress_fh, write_fh, readinto_fh"]}
{"id": "C32", "title": "Corrupted or truncated data is never returned as good", "statement": "If the stored bytes of an encrypted object are altered, truncated, extended or recombined in any way, reading it reports an error instead of returning different content (given that the authentication code cannot be forged).", "quantifier": "every modification of the stored byte string", "why_tests_cant": "quantifies over all modifications", "anchors": ["src/s3ql/backends/comprenc.py: decrypt_fh"]}
{"id": "C33", "title": "Objects cannot be swapped or their metadata forged", "statement": "Object metadata is only accepted for an encrypted file system if it was written by a holder of the passphrase for exactly that object name; unencrypted objects are rejected on an encrypted file system and vice versa. This assumes that the authentication code cannot be forged, that SHA-256 has no collisions among the inputs used, that object names contain no NUL bytes, that no time stamp and name pair is used twice and that no object name ends in 'meta' (the data key of NAME+'meta' is the metadata key of NAME written at the same time).", "quantifier": "every stored metadata, every object name", "why_tests_cant": "quantifies over adversarial metadata", "anchors": ["src/s3ql/backends/comprenc.py: _verify_meta, write_fh"]}
{"id": "C34", "title": "The authenticated encoding of metadata is unambiguous", "statement": "Two different metadata mappings whose keys and string values contain no NUL characters never have the same byte encoding under the signature; with NUL characters there are collisions.", "quantifier": "every pair of mappings", "why_tests_cant": "a collision needs specific contents", "anchors": ["src/s3ql/backends/common.py: checksum_basic_mapping"]}
{"id": "C35", "title": "Distinct keys are distinct files in the local backend", "statement": "Different object names map to different paths, temporary files are never mistaken for objects, no object lies where another needs a directory, and every name can be recovered from its path; except for the names '', '.' and '..', which name a directory.", "quantifier": "every pair of object names", "why_tests_cant": "quantifies over all strings", "anchors": ["src/s3ql/backends/local.py: _key_to_path, escape, unescape"]}
{"id": "C36", "title": "Local backend stores what it is given", "statement": "Reading back an object from the local backend returns the metadata and data of the last write under that key completed before the file was opened; deleting removes exactly that key; only uploads with too large metadata fail; a crash at any point leaves exactly the stored objects. This holds as long as no two uploads of the same key overlap and the disk takes every write completely.", "quantifier": "every history of write, read, delete and crash, interleaved at the granularity of single reads and writes of the file", "why_tests_cant": "quantifies over histories", "anchors": ["src/s3ql/backends/local.py: write_fh, readinto_fh, lookup, delete"]}
{"id": "C37", "title": "Local backend listing is complete", "statement": "Listing with a prefix returns only stored keys that start with the prefix, each once; it returns all of them if the prefix is empty, not a prefix of a data object, or at most three characters longer than 's3ql_data_', or if they lie in the directory of the prefix.", "quantifier": "every set of keys, every prefix", "why_tests_cant": "the failing prefixes are long ones into nested directories", "anchors": ["src/s3ql/backends/local.py: list"]}
{"id": "C38", "title": "Bulk deletion reports precisely what is left", "statement": "After deleting several objects, whether the method returns or raises, a key that is no longer in the caller's list is gone, a key still in the list is as it was (parallel deletion: unless its deletion was under way; remote bulk deletion: unless an answer was lost), other objects are untouched, and the list is empty when the method returns. Exceptions, each shown by a counterexample: s3c4 leaves the list as it was when it raises although objects were deleted, and returns normally with keys left (missing ones, and others whose error is hidden by a missing one); swift with bulk delete needs a server that goes through all keys, otherwise keys vanish from the list and are never deleted.", "quantifier": "every key list, every point of failure, every backend", "why_tests_cant": "failure at each position in each batch", "anchors": ["src/s3ql/backends/common.py: AsyncBackend.delete_multi", "src/s3ql/backends/local.py: delete_multi", "src/s3ql/backends/s3c4.py: delete_multi"]}
{"id": "C39", "title": "Retries are faithful and bounded", "statement": "A retried operation returns the result of the first attempt that does not fail temporarily; a permanent error is raised at once; up to 289 temporary failures never make it give up, and it gives up only after more than RETRY_TIMEOUT seconds of pauses. Every pause is at most 450 seconds, their sum at most 130050 seconds, and there are at most 86707 attempts, whatever the server asks for.", "quantifier": "every sequence of outcomes of the attempts", "why_tests_cant": "quantifies over infinite outcome sequences", "anchors": ["src/s3ql/backends/common.py: retry"]}
{"id": "C40", "title": "A retried download starts over", "statement": "When a download is retried (s3c, swift) and returns, the file holds at the original position exactly the body of the last attempt, whose checksum is that of the answer, with the metadata of the same answer; the file before that position, and beyond everything received, is as it was. fetch returns exactly the object if no attempt received more bytes than the object has (otherwise the rest of the longer answer stays: counterexample). For gs this holds only if failed attempts received no data and the object is not replaced meanwhile (counterexamples for both: the position is not set back, and metadata and data are two requests).", "quantifier": "every object, every position at which earlier attempts fail", "why_tests_cant": "needs a failure in mid-transfer for each backend", "anchors": ["src/s3ql/backends/s3c.py: _readinto_fh", "src/s3ql/backends/gs.py: _readinto_fh", "src/s3ql/backends/swift.py: _readinto_fh"]}
{"id": "C41", "title": "Object metadata survives the HTTP header encoding", "statement": "Metadata without spaces in its strings (everything s3ql itself stores) that is accepted for upload is extracted unchanged, although the transport removes spaces around header values, for every chunk size; so is metadata with spaces unless one falls on the border of a chunk, in which case the object is accepted but its metadata can never be extracted. Whatever is extracted has the checksum that came with it; no header exceeds the chunk size, all together 2048 characters. Infinite floats are accepted but cannot be read.", "quantifier": "every metadata mapping", "why_tests_cant": "depends on the chunking of long values", "anchors": ["src/s3ql/backends/s3c.py: _add_meta_headers, _extractmeta"]}
{"id": "C42", "title": "Paged listings are complete", "statement": "Listing page by page (s3c, swift, gs) yields no key twice, only keys with the prefix that were stored at some time during the listing, and every key with the prefix that is stored all the time, whatever is created or removed meanwhile, for every page size and every order the server uses; with finitely many keys the listing ends. Temporary objects of swift are left out but counted. swift relies on full pages (a server with smaller pages makes it stop early: counterexample), gs raises an exception on an empty page that is not the last (counterexample).", "quantifier": "every key set, every page size", "why_tests_cant": "page boundary behaviour for all sizes", "anchors": ["src/s3ql/backends/s3c.py: list, _list_page", "src/s3ql/backends/gs.py: list", "src/s3ql/backends/swift.py: list"]}
{"id": "C43", "title": "A request body is sent exactly as announced", "statement": "A request that gets a response has sent exactly the announced number of bytes, the first ones of its body, or its body was refused by the server before any of it was sent, or the server closed the connection meanwhile; in every other case an error is raised. On every TCP connection each request but the newest has been sent completely or refused, a request that fails after it has begun leaves a connection that is not used again, and the response returned is the one to this request. (A body whose surplus begins with an item of its own is cut off without an error; a connection closed by the server in the middle of a body may count as idle; a 100 Continue nobody asked for is returned as the response.)", "quantifier": "every sequence of body parts and every announced length", "why_tests_cant": "quantifies over all partitions of the body", "anchors": ["src/s3ql/http.py: HTTPConnection._stream_body, write"]}
{"id": "C44", "title": "The connection pool never shares or overcommits connections", "statement": "At any time at most max_connections connections are in use or open at all, no connection is handed to two users, only new or idle connections are handed out, every open connection is idle or held by a task, and a closed pool refuses borrowers and is empty once the last one has left.", "quantifier": "every schedule of borrowers", "why_tests_cant": "quantifies over schedules", "anchors": ["src/s3ql/http.py: Pool"]}
{"id": "C45", "title": "Parallel pipelines process every item exactly once", "statement": "Every item produced is consumed exactly once, never more than the configured number of items is in progress, and an error stops the pipeline and is reported.", "quantifier": "every item list, every number of workers, every schedule", "why_tests_cant": "quantifies over schedules", "anchors": ["src/s3ql/common.py: ParallelPipeline"]}
{"id": "C46", "title": "fsck leaves a consistent database", "statement": "A file system check that ends without exception leaves a database in which every reference resolves, all reference counts are right, sizes cover the data, every object row is in the backend with hash and size, and reports no uncorrectable error, unless a newly made name gets an id that a dangling row already refers to or the name chosen for a nameless attribute is in use (both go unnoticed and are shown to do damage). Existing inodes, undamaged blocks, attributes, targets and entries of existing inodes are kept. A clean file system is left unchanged; a second check finds nothing provided the first left no object without block, odd type, overlong name or displaced lost+found (without this proviso it does find something).", "quantifier": "every database content, consistent or not", "why_tests_cant": "quantifies over all inconsistent databases", "anchors": ["src/s3ql/fsck.py: Fsck.check and all check_* methods"]}
{"id": "C47", "title": "fsck preserves data that was written before the crash", "statement": "The data of a cached block of an existing file is in that file after the check, under its hash, if rows of objects tell the truth about the backend. If an upload was registered but never finished, the only copy is removed (shown by a counterexample).", "quantifier": "every crash point of an upload", "why_tests_cant": "needs a crash between registering and storing an object", "anchors": ["src/s3ql/fsck.py: check_cache"]}
{"id": "C48", "title": "Rescued entries get fresh names", "statement": "When the check puts an entry into lost+found, a name is always found, it is not in use there, the move cannot violate a uniqueness constraint, and the name has at most 255 bytes if lost+found has fewer than 1000 entries (with 1000 it can be longer).", "quantifier": "every directory content, every name", "why_tests_cant": "quantifies over all directory contents", "anchors": ["src/s3ql/fsck.py: resolve_free, check_lof"]}
{"id": "C49", "title": "After fsck every directory is reachable from the root", "statement": "After a loop check (and after a whole check) that ends without exception every directory can be reached from the root directory, and entries whose directory already could are left where they were if directories have one entry each. A root directory inside its own subdirectory, or more levels than the recursion limit, make the check end with an exception.", "quantifier": "every parent graph, including cycles", "why_tests_cant": "quantifies over all graphs", "anchors": ["src/s3ql/fsck.py: check_loops"]}
{"id": "C50", "title": "Verification reports exactly the damaged objects", "statement": "A completed run of s3ql_verify --data lists an object after the start offset as missing if and only if the storage does not hold it, and as corrupted if and only if the storage holds it but does not deliver the content that was stored; nothing is listed twice; without --data the same holds for the metadata of the objects instead of their content. Every run ends, and exits with 46 exactly if something was listed. Exceptions: a row without hash and an object stored without encryption abort the run.", "quantifier": "every object set, every storage state, every start offset", "why_tests_cant": "quantifies over storage states", "anchors": ["src/s3ql/verify.py: _open_new_file, verify, RetrieveObjects", "src/s3ql/common.py: ParallelPipeline"]}
{"id": "C51", "title": "Backup expiration keeps a backup for every configured age range", "statement": "Expiring old backups never empties an age range: now and after any number of further backups, an age range contains a backup that has not been removed if and only if it would contain one had no backup ever been removed; recorded ages are the true numbers of later backups; only existing backups are removed and never more than the permitted proportion. The newest backup is never removed if the first age boundary is 1 (with a larger first boundary the newest backup can be removed right after it was made).", "quantifier": "every age configuration and every backup/expire schedule", "why_tests_cant": "quantifies over schedules of backups over unbounded time", "anchors": ["contrib/expire_backups.py: process_backups, upgrade_to_state, simulate"]}
{"id": "C52", "title": "Sequential batching helpers neither lose nor duplicate", "statement": "Splitting a sequence into batches of at least one element yields non-empty batches of at most the requested size whose concatenation is the sequence (a batch size of zero never ends). Work done in batched transactions is committed completely and in order, however the block is left, no transaction stays open, and a batch never gets smaller than 100 elements; if the clock has not advanced between the begin and the end of a batch, the operation fails.", "quantifier": "every sequence and batch size", "why_tests_cant": "quantifies over sequences", "anchors": ["src/s3ql/common.py: split_by_n", "src/s3ql/database.py: BatchedTransactionManager"]}
{"id": "C53", "title": "Changing the passphrase never locks the user out", "statement": "If the passphrase change is interrupted after any number of stored objects, the file system opens with the new passphrase (with the old one if nothing was stored yet) and yields the same master key; every other object is unchanged; a passphrase whose HMAC does not coincide is refused; a wrong old passphrase changes nothing. recover-key with the printed key restores access whatever the key objects hold. Exceptions: the backup copies are only usable through recover-key, not by copying them over s3ql_passphrase; recover-key does not check the key it is given.", "quantifier": "every crash point, every passphrase", "why_tests_cant": "all crash points", "anchors": ["src/s3ql/adm.py: change_passphrase", "src/s3ql/mkfs.py", "src/s3ql/backends/__init__.py: open_backend"]}
{"id": "C54", "title": "Creating a file system never overwrites one", "statement": "mkfs refuses to run and changes nothing if the storage holds s3ql_params or s3ql_metadata; otherwise it only writes its own objects and creates an empty file system that can be mounted with the passphrase given, whatever else the storage holds; if interrupted, it can be repeated or the file system can be mounted. A file system that is mounted has the current revision, was neither mounted nor in need of a check, and its database has the recorded size and checksum. Exceptions: with --plain and a left s3ql_passphrase the result cannot be mounted; a file system that lost s3ql_params is not noticed.", "quantifier": "every storage content", "why_tests_cant": "quantifies over storage contents", "anchors": ["src/s3ql/mkfs.py: main_async, init_tables"]}
{"id": "C55", "title": "Configuration sections combine predictably", "statement": "For each storage URL the value used for an option is the one from the last configuration section whose storage-url is a prefix of it and which has the option (a [DEFAULT] section counts as part of every section, and every % in a value must be doubled); command line options override; unknown or malformed options and files readable by others are rejected; backend options are parsed as written, the last one counts. For gs, s3c, s3c4, swift, swiftks and rackspace all URLs of a location are unified (not for s3 and b2), and canonical local URLs other than the root directory stay the same.", "quantifier": "every configuration file, every URL", "why_tests_cant": "quantifies over configurations", "anchors": ["src/s3ql/authinfo.py: Authinfo.from_file, pick, CompressSpec.parse", "src/s3ql/backends/config.py: parse_suboptions", "src/s3ql/backends/__init__.py: open_raw_backend", "src/s3ql/parse_args.py: _canonicalize_storage_url"]}
{"id": "C56", "title": "Thread, cache and quota arithmetic stays within bounds", "statement": "The automatically determined number of compression threads is at least one and at most ten, at most two per core, and more than one are only used if they need at most half of the memory. The number of cache entries leaves descriptors for connections; it is positive if and only if a positive number was requested and enough descriptors exist (with an explicit request there is no check). Reported file system statistics are consistent: free <= total, used blocks are the stored data up to rounding, used inodes exact, at least half free, never older than 30 seconds unless the clock is set back; extended statistics are exact sums unless they exceed 64 bits.", "quantifier": "every amount of memory, cores, descriptor limits, file system sizes, sequence of calls", "why_tests_cant": "quantifies over all platform parameters", "anchors": ["src/s3ql/mount.py: determine_threads, _determine_max_cache_entries", "src/s3ql/fs.py: Operations.statfs", "src/s3ql/statfs.py"]}
{"id": "C57", "title": "Moving a directory never detaches part of the tree", "statement": "Every operation keeps every entry reachable from the root: only empty directories are removed or replaced by rename. (The kernel must not move a directory below itself; moving something into a directory that has already been removed is not prevented.)", "quantifier": "every history of namespace operations", "why_tests_cant": "an invariant over histories", "anchors": ["src/s3ql/fs.py: Operations.rename, _rename, _replace, _remove, rmdir"]}
{"id": "C58", "title": "Case-insensitive headers", "statement": "HTTP headers behave like a map with case-insensitive keys: setting replaces any spelling, deletion removes any spelling, and iteration yields the spelling last used.", "quantifier": "every sequence of operations and spellings", "why_tests_cant": "quantifies over spellings and histories", "anchors": ["src/s3ql/http.py: CaseInsensitiveDict"]}
{"id": "C59", "title": "The metadata upload task produces consistent snapshots under concurrent modification", "statement": "The metadata stored by the periodic upload while the file system is in use equals the database at one single moment, although earlier passes of the same upload ran while the database was being modified.", "quantifier": "every interleaving of database writes with the passes of the upload", "why_tests_cant": "quantifies over interleavings", "anchors": ["src/s3ql/mount.py: MetadataUploadTask.run", "src/s3ql/database.py: upload_metadata, inhibit_writes"]}
{"id": "C60", "title": "Backend keys and escapes in messages and paths are reversible where required", "statement": "The text escapes used for object paths and for the files of a file system in the cache directory are injective, so that two names are never confused with each other and no file in the cache directory belongs to two storage URLs; the escape for names in /lost+found yields file names, distinct ones for paths without underscores.", "quantifier": "every pair of names", "why_tests_cant": "quantifies over strings", "anchors": ["src/s3ql/common.py: escape", "src/s3ql/fsck.py: escape", "src/s3ql/backends/local.py: escape, unescape"]}
{"id": "C61", "title": "The block cache never deadlocks", "statement": "As long as a call of the block cache (get, remove, flush, start_flush, drop) has not returned, some task of the cache, an upload, the removal task or a user holding a block can make a step: no combination of calls, uploads, removals and full queues leads to a state in which all wait for each other.", "quantifier": "every interleaving of every set of concurrent calls, any number of upload tasks and any queue capacity (at least one)", "why_tests_cant": "deadlocks depend on interleavings, of which there are infinitely many", "anchors": ["src/s3ql/block_cache.py: get, upload_if_dirty, _upload_loop, _removal_loop, _deref_obj, remove, evict, start_flush, flush, drop", "src/s3ql/multi_lock.py"]}
{"id": "C62", "title": "Requests do not crash the mount", "statement": "A request that refers to inodes the kernel has references to, creates only names that do not exist and reads objects that are not missing never raises an unexpected exception (which would terminate the mount) - except the removal of the control file.", "quantifier": "every history of requests, every request", "why_tests_cant": "needs the invariant of all tables in every reachable state", "anchors": ["src/s3ql/fs.py: all request handlers"]}
{"id": "C63", "title": "The rate of temporary errors is exact", "statement": "The number of events that a RateTracker reports is the number of events registered during the last window_length seconds.", "quantifier": "every window length, every interleaving of events and queries at non-decreasing times", "why_tests_cant": "quantifies over all histories and window positions, including queries between events that wipe buckets without recording it", "anchors": ["src/s3ql/backends/common.py: RateTracker"]}
{"id": "C64", "title": "An interrupted upgrade loses nothing and can be resumed", "statement": "s3qladm upgrade of a cleanly unmounted file system of the previous revision yields a file system with the same database that can be mounted on this and any other computer. Interrupted at any point it leaves the local database unchanged, and either the old metadata object unchanged or the new file system complete; interrupted before the local parameters are written, it can be repeated with the same result. Otherwise it changes nothing. Exception: interrupted between the local and the remote parameters it can not be resumed, and repeated after that it ends with an exception.", "quantifier": "every crash point, every state of the local copy and the storage", "why_tests_cant": "all crash points and all combinations of local and remote revisions and sequence numbers", "anchors": ["src/s3ql/adm.py: upgrade, get_old_rev_msg", "src/s3ql/database.py: read_remote_params, read_cached_params, FsAttributes.deserialize", "src/s3ql/mount.py: get_metadata"]}
{"id": "C65", "title": "fsck recognises exactly the missing and the unreferenced data objects", "statement": "If no foreign object in the storage has a name s3ql_data_X with X readable as an integer, fsck keeps the row of an object exactly if the storage has it (even if the listing does not show it yet), deletes exactly the listed data objects without row, touches nothing else, and reports an error exactly if it changed something not caused by its own cache check. Exception: a foreign name such as s3ql_data_01 hides the loss of object 1, and next to s3ql_data_1 (or with a number beyond 64 bits) it ends fsck with an exception.", "quantifier": "every listing, every set of rows, every content of the storage", "why_tests_cant": "all listings, including names the program did not write and objects missing from the listing", "anchors": ["src/s3ql/fsck.py: Fsck.check_objects_id"]}
{"id": "C66", "title": "Signed requests are accepted and refer to the object that was meant", "statement": "Every request is signed such that the service, computing the signature from what arrives, accepts it (versions 2 and 4), at any time of a session with changes of day, host and region; two requests with the same signed text are the same request; and every request refers to the bucket and key that were meant. Exceptions: version 4 without TLS on port 80 or 443, or with an IPv6 address as host; a bucket name with which the host name begins.", "quantifier": "every request with any key, prefix, marker and headers; every history of days, hosts and regions; every digest function", "why_tests_cant": "the service is not available to unit tests, and all byte sequences in keys, parameters and headers matter", "anchors": ["src/s3ql/backends/s3c.py: Backend._authorize_request, _do_request_inner", "src/s3ql/backends/s3c4.py: Backend._authorize_request, update_signing_key", "src/s3ql/backends/s3.py: Backend._discover_region", "src/s3ql/backends/b2ng.py: Backend._discover_region", "src/s3ql/backends/http.py: send_request"]}
{"id": "C67", "title": "Modified blocks are uploaded after the delay", "statement": "A modified block that was not accessed for --dirty-block-upload-delay seconds is uploaded by the next iteration of the periodic task unless it is accessed again meanwhile; the task never decides to upload a block that was written less than the delay ago, is not modified, or is already being uploaded. Exception: a block that is read from time to time may never be uploaded as long as other blocks are written.", "quantifier": "every history of accesses, uploads by others, failures and evictions, interleaved with the steps of the task", "why_tests_cant": "depends on the order of the cache in every reachable state and on interference during the iteration", "anchors": ["src/s3ql/mount.py: CommitTask.run", "src/s3ql/block_cache.py: CacheEntry, BlockCache.get, upload_if_dirty"]}
{"id": "C68", "title": "Expired access tokens are renewed once and not used again", "statement": "With any number of concurrent requests, at most one asks for a new access token at a time, and none waits for another one except for that. Swift: a login is made only if there was none or the token of the last one was rejected; attempts that start after a 401 was dealt with do not use the rejected token; token and path prefix of a request are from the same login. Google Storage: no request is sent with a token in its last five minutes unless it was just obtained; a rejected token is not used again; the number of unexpired tokens is bounded by the number of answers 401, and one. Exceptions: with Google Storage a late 401 for an old token discards the new one, so that n requests may cause n new tokens; with Swift a request that waits for a connection while the storage host changes is sent to the old host with the new token.", "quantifier": "every interleaving of any number of requests, logins, rejections, failures and cancellations", "why_tests_cant": "depends on all interleavings of concurrent tasks", "anchors": ["src/s3ql/backends/swift.py: _borrow_conn, _do_request, _do_authentication_expired", "src/s3ql/backends/gs.py: _ensure_token, _get_access_token, is_temp_failure"]}
{"id": "C69", "title": "Objects uploaded to Google Storage arrive unaltered", "statement": "For every bucket, key, prefix, content and metadata (names made of encodable characters; strings, bytes, integers, booleans, None, and floats that can be read back), the request that uploads the object contains JSON from which the service reads exactly the name of the object and one attribute for each item, and exactly the content; reading the attributes back in any order gives the metadata; they are never mistaken for those of an earlier version, and those of an earlier version are read as they were meant; the paths of requests decode to the bucket and the object that are meant. Contents may contain the delimiter because the service determines their end by length; one that looks for the delimiter would get the content exactly if the delimiter does not occur in it. Exception: float values such as inf are accepted but cannot be read back.", "quantifier": "every name, content and metadata", "why_tests_cant": "all characters, quotes and delimiters in names, values and contents", "anchors": ["src/s3ql/backends/gs.py: write_fh, _wrap_user_meta, _unwrap_user_meta, delete, readinto_fh"]}
{"id": "C70", "title": "Time stamps tell what was changed", "statement": "For every sequence of requests: a successful request sets the status-change time of each inode that it changes, and also the modification time of each one whose contents it changes (both directories of a rename, a directory in which a name is added or removed, the file that is written or truncated by opening it). Hence if the status-change time of an inode is not later than some point in time, nothing of it (attributes, size, bytes, entries, extended attributes, target) was changed after that, and it existed then; and if its modification time is not later, its contents were not changed, provided that size and modification time were not set explicitly. The access time is set exactly by reading, if it is older than one of the others, and then it is not older any more. setattr sets exactly what is given, and accepts exactly the times of 64 bits. Requests that fail change nothing. Exceptions: truncate and ftruncate (setattr with a size only) leave the modification time as it is; a write that fails because a block cannot be retrieved may have changed the blocks before it, without setting any time; setattr with a time that cannot be stored fails after changing what precedes it, without setting the status-change time.", "quantifier": "every sequence of requests, state and time", "why_tests_cant": "all sequences of requests, failures at every block", "anchors": ["src/s3ql/fs.py: readlink, readdir, setxattr, removexattr, unlink, rmdir, _remove, symlink, _rename, _replace, link, setattr, open, create, _create, read, write"]}
{"id": "C71", "title": "Cached blocks are arrays of bytes wherever their position was left", "statement": "For every sequence of reads, writes, seeks and truncations of a cached block (by requests, hashing and uploading), each of them acts on the file as on an array of bytes with a position; the position and size that the entry remembers are those of the file, so that leaving out a seek is harmless; the entry is dirty exactly if something was written or cut since it was opened, and otherwise its contents are those that were downloaded; the bytes that are hashed, compressed, encrypted or given to the backend are exactly the contents; a write that raises changes nothing. A local backend stores exactly these bytes; the size that it returns is the right one if and only if they are stored completely. All this provided that the system accepts each write completely or not at all. Exceptions: both kinds of files are written without buffering and the number of bytes accepted is ignored, so that when the disk gets full the end of a write can be lost without an error (the next write to the block goes to the wrong place; a local backend renames a truncated object into place and reports success); an empty write behind the end makes the size of the entry wrong (requests never do this).", "quantifier": "every sequence of accesses, contents, positions and results of the system calls", "why_tests_cant": "all interleavings of positions left by uploads and requests; partial writes", "anchors": ["src/s3ql/block_cache.py: CacheEntry, upload_if_dirty, _do_upload", "src/s3ql/fs.py: _readwrite", "src/s3ql/common.py: sha256_fh, copyfh", "src/s3ql/backends/comprenc.py: _compress_sync, compress_fh, encrypt_fh", "src/s3ql/backends/local.py: write_fh"]}
{"id": "C72", "title": "Mount options given as in fstab mean the same as long options", "statement": "For all arguments of mount.s3ql: options after -o, separated by commas, are replaced in place and in order by --key value, by --flag, or by nothing (options that mount.s3ql ignores, such as rw or noauto); every option has exactly one of these meanings unless it is ro or contains two equality signs; arguments without -o before -- stay as they are; with ro the file system is not mounted. Exceptions: an option whose value contains an equality sign (backend options) makes mount.s3ql crash; an empty option (a comma at the end, or two in a row) becomes --, so that the arguments after it are not taken as options; -o as last argument makes it crash; only the first -o is replaced.", "quantifier": "every list of arguments", "why_tests_cant": "all combinations and positions of options", "anchors": ["src/s3ql/mount.py: _expand_fstab_options"]}
{"id": "C73", "title": "umount.s3ql returns after the daemon has finished", "statement": "For every interleaving of umount.s3ql (not lazy) with the daemon and other processes, provided that the process of the daemon can be seen: umount.s3ql succeeds only after the daemon has terminated, hence after everything was uploaded unless the daemon failed; if it reports that the file system is in use or that unmounting failed, it has not unmounted it; it never gets stuck, and the first check after the process has disappeared (or another one with a different command line has its number) ends it, with pauses of at most a second (1.1 with rounding). Exceptions: if the daemon fails while it uploads the rest, umount.s3ql reports success; if the process cannot be seen (other PID namespace, hidepid) it returns at once; if the number is used again by a process with the same command line, it waits for that one.", "quantifier": "every interleaving", "why_tests_cant": "races between the daemon, its termination and the reuse of its number", "anchors": ["src/s3ql/umount.py: blocking_umount, lazy_umount, get_cmdline, umount"]}
{"id": "C74", "title": "Messages reach the console and the log file", "statement": "For all options and all sequences of messages: warnings and errors without limits are written to the console and to the log file; information unless --quiet; debugging messages exactly for the modules asked for. A message to be written once is written to the console the first time and never again; messages with a rate limit are at least that far apart, except the last one, and dropped only if another one was written within this time. On a terminal every ordinary message has its own line and a series of progress messages shares one; redirected, each has its line. Exceptions: the filter is shared, so that with a log file a message to be written once is never in the file and one with a rate limit only if it is the last one (or the console is slow); within the rate limit after the start of the system the first one is dropped; a progress message that is shorter than the one before leaves its end on the screen.", "quantifier": "all options, all sequences of messages and times", "why_tests_cant": "depends on the history of messages, clocks and on the number of handlers", "anchors": ["src/s3ql/logging.py: setup_logging, LogFilter.filter, ConsoleHandler.emit, add_stdout_logging"]}
{"id": "C75", "title": "The local database survives crashes, snapshots are consistent, downloads are faithful", "statement": "For every sequence of transactions, checkpoints (interrupted anywhere), crashes, opening and closing of the metadata database: what is read are exactly the transactions that took place, those before the beginning of the last checkpoint are never lost, not even in a power failure (later ones may be, from the end); the file uploaded as a snapshot is the state that was committed at the last complete checkpoint and does not change while writes are inhibited; after closing it is complete and there is no log. A downloaded database is what was uploaded if the previous one was closed, and a new file system is empty in any case. Exception: if the previous database was not closed (crash), its log <cachepath>.db-wal is left behind, no program removes it (not even s3qladm clear), and SQLite applies it to the downloaded file.", "quantifier": "all sequences of operations and crashes", "why_tests_cant": "crashes at every point, interleaved with checkpoints; logs left from earlier sessions", "anchors": ["src/s3ql/database.py: Connection.__init__, Connection._do_checkpoint, Connection.inhibit_writes, Connection.close, download_metadata", "src/s3ql/mount.py: get_metadata, MetadataUploadTask.run", "src/s3ql/adm.py: clear"]}
{"id": "C76", "title": "s3qladm clear deletes the whole file system and nothing else", "statement": "For every backend that lists and deletes correctly, for all sets of objects, sizes of pages and batches, and whatever others create and remove meanwhile: if s3qladm clear ends without an error, no object below the prefix that the backend lists is left, except for those created meanwhile; in any case nothing outside the prefix is deleted; unless the user types yes nothing happens, and otherwise the local metadata and cache are removed, even if deleting fails later. Exceptions: temporary objects (local: names with #; Swift: suffix) remain; if it fails on the way, data may be gone while the parameters are still there, so that the file system can be mounted without complaint.", "quantifier": "all sets of objects, listings, batches and concurrent changes", "why_tests_cant": "deleting while the listing goes on; concurrent changes", "anchors": ["src/s3ql/adm.py: clear", "src/s3ql/backends/local.py: AsyncBackend.list", "src/s3ql/backends/swift.py: AsyncBackend.list"]}
{"id": "C77", "title": "Requests handled at the same time behave as if handled one after the other", "statement": "For all block sizes, all sets of read, write and truncate requests on all files, and all ways in which their work on single blocks is interleaved: if requests on overlapping ranges of a file are not in progress at the same time (and nothing else is during a truncation), then every answer is the one given by plain byte arrays on which each request takes effect at a single moment between its arrival and its answer; the sizes are at all times those of the arrays, the contents when all requests have ended, and every request can end. Exceptions (for overlapping requests, which the kernel does not send at the same time, except for reads during truncations): the file may contain parts of two writes, a read may return parts of old and new data or zeros during a truncation, a write during a truncation may be cut off.", "quantifier": "all block sizes, requests and interleavings", "why_tests_cant": "number of interleavings", "anchors": ["src/s3ql/fs.py: Operations.read", "src/s3ql/fs.py: Operations.write", "src/s3ql/fs.py: Operations._readwrite", "src/s3ql/fs.py: Operations.setattr", "src/s3ql/block_cache.py: BlockCache.remove"]}
{"id": "C78", "title": "Connections: right server, encryption, proxy", "statement": "Whatever the storage URL, the options, the proxies named in the environment and the answers of the servers: the password goes only to the server that the storage URL names for it (for Backblaze api.backblazeb2.com, for Google accounts.google.com, for Rackspace its own), at the port of the URL, and encrypted with the certificate of that server unless no-ssl is given. All other requests go to a server named by the storage URL or by a server so named (redirect, s3ApiUrl of the form s3.<region>.backblazeb2.com, X-Storage-Url, the first public object-store endpoint of the configured region in the catalog), carry only the token issued together with that name or a signature for the region, and are encrypted if the server was named with https, or not named with http and no-ssl is not given. Without no-ssl and http URLs, only names and ports of servers can be read on the way. Encrypted messages go through https_proxy in a tunnel to the server that can decrypt them, others through http_proxy; a variable that is no proxy stops the program before anything is sent. Unencrypted uploads are compared with a checksum. If the servers answer properly, all requests are sent in order; if no endpoint is in the region, the others are listed. Exceptions: the login of the B2 backend ignores the proxy; unencrypted messages of the Swift backends go through https_proxy; with no-ssl and no port Swift and B2 send the password unencrypted to port 443; unencrypted uploads of the Swift backends are not compared with a checksum.", "quantifier": "all backends that use HTTP, storage URLs, options, environments, answers of the servers (any catalog, redirect, status), sequences of requests", "why_tests_cant": "Tests run against a mock server without TLS, proxy, redirects to other hosts or catalogs with several services and regions; what is sent to whom under all combinations of options and answers cannot be enumerated.", "anchors": ["src/s3ql/backends/swiftks.py:86", "src/s3ql/backends/swift.py:346", "src/s3ql/backends/s3.py:92", "src/s3ql/backends/b2ng.py:105", "src/s3ql/backends/common.py:545", "src/s3ql/http.py:272"]}
{"id": "C79", "title": "Metadata is found in the headers it was put in; old Backblaze objects stay readable", "statement": "write_fh puts the metadata of an object into numbered HTTP headers below the prefix of the backend, with a mark of the format and a checksum. Whatever other headers the request has and the server adds to its answer, and whatever the case of the names, lookup and readinto_fh give the same metadata back (for metadata that C41 covers). They read only headers with the prefix, end for every answer, return metadata only with the right mark and the right checksum, and otherwise raise: CorruptedObjectError without the mark, BadDigestError (which is tried again) with a wrong checksum, except for s3ql_passphrase and s3ql_metadata where this is a CorruptedObjectError, too. The b2 backend also reads objects whose headers have the names an earlier backend gave them; it prefers the present names, and reading one object has no influence on how others are read, even if it fails.", "quantifier": "all prefixes, header sizes, metadata (of C41), further headers of request and answer, names of objects, sequences of answers with and without errors", "why_tests_cant": "Tests run with a few mappings against a mock server that returns just the headers it got; the state of the b2 backend (its prefix, changed while it reads an old object) matters only for sequences of answers with errors in between.", "anchors": ["src/s3ql/backends/s3c.py:444-481", "src/s3ql/backends/s3c.py:694-742", "src/s3ql/backends/swift.py:118-203", "src/s3ql/backends/b2ng.py:170-191", "src/s3ql/http.py:946-990"]}
{"id": "C80", "title": "Commands for a mounted file system arrive as they were meant", "statement": "s3qlcp, s3qllock, s3qlrm and s3qlctrl send their commands as texts to the control file of the mounted file system. The file system reads from each text exactly the command that was sent, for all inode numbers, names of files (any bytes: quotes, backslashes, line feeds, bytes that are no text), log levels and modules. s3qlrm with the path of a directory, with links and '..' on the way and slashes at the end, asks for the removal of the very entry of that directory; it refuses mount points and paths of files, and removes nothing for paths that end in '.' or '..'. s3qllock locks the tree its path leads to. s3qlcp asks for a copy of the directory its source leads to, into the directory it has just made, if both are on the same file system and the source is no mount point, and refuses otherwise. Exceptions: with the path of a symbolic link to a directory, s3qlrm asks for the removal of an entry with the name of the link in the parent of the directory that the link leads to; if there is such an entry, another directory is removed. If the path of the target has '..' behind a symbolic link, s3qlcp checks the file system of a directory other than the one in which it makes the target; the target may then be on another file system, and its number be taken for that of another directory.", "quantifier": "all commands (names of modules without commas), all trees of directories, files and symbolic links, all paths", "why_tests_cant": "Tests send a few plain names; quoting has many cases (both kinds of quotes, control characters, bytes above 127), and what a path means depends on the whole tree.", "anchors": ["src/s3ql/remove.py:52-76", "src/s3ql/lock.py:52-58", "src/s3ql/cp.py:57-98", "src/s3ql/ctrl.py:60-118", "src/s3ql/fs.py:281-344", "src/s3ql/common.py:284-324"]}
