(** Attributes and time stamps: src/s3ql/fs.py, all requests that change attributes (lines at the definitions).
    The state is what the requests see through the inode cache (C12) and the block cache (C01, C03): inodes, directory entries, bytes of files, extended attributes,
    targets of links, and how often the kernel refers to an inode. Names are numbers; bytes that are not in [data] are zero.
    Each request gets one reading of the clock, and the set of blocks that cannot be retrieved; the time stamps of fs.py 206, 704, 951 etc. are taken once per request.
    Simplified: the table of names (C15), the control file (a name that cannot be created, linked or renamed), inodes of requests and entries that do not exist (C46, C62) are errors
    that change nothing, requests run one after the other (concurrent ones: C01, C10), copy_tree, remove_tree and lock_tree (C20, C21). *)
From stdpp Require Import prelude gmap.
From Coq Require Import NArith ZArith.
Local Open Scope N_scope.

Record attrs := Attrs { mode : N; uid : N; gid : N; rdev : N; refs : N; size : N; atime : Z; mtime : Z; ctime : Z; locked : bool }.
Record state := State { inodes : gmap N attrs; contents : gmap (N * N) N; data : gmap (N * N) N; xattrs : gmap (N * N) (list N); targets : gmap N (list N); opened : gmap N N; failsafe : bool; next : N }.
Inductive errno := EPERM | EACCES | ENOENT | ENOTEMPTY | EISDIR | ENOTDIR | EINVAL | EIO | ENOATTR | ENOTSUP | EEXIST.
Inductive result := Ok | Err (e : errno).

Definition set_inodes f (s : state) := State (f (inodes s)) (contents s) (data s) (xattrs s) (targets s) (opened s) (failsafe s) (next s).
Definition set_contents f (s : state) := State (inodes s) (f (contents s)) (data s) (xattrs s) (targets s) (opened s) (failsafe s) (next s).
Definition set_data f (s : state) := State (inodes s) (contents s) (f (data s)) (xattrs s) (targets s) (opened s) (failsafe s) (next s).
Definition set_xattrs f (s : state) := State (inodes s) (contents s) (data s) (f (xattrs s)) (targets s) (opened s) (failsafe s) (next s).
Definition set_targets f (s : state) := State (inodes s) (contents s) (data s) (xattrs s) (f (targets s)) (opened s) (failsafe s) (next s).
Definition set_opened f (s : state) := State (inodes s) (contents s) (data s) (xattrs s) (targets s) (f (opened s)) (failsafe s) (next s).
Definition fail_safe (s : state) := State (inodes s) (contents s) (data s) (xattrs s) (targets s) (opened s) true (next s).

(** Assignments to attributes of an inode object *)
Definition with_atime t a := Attrs (mode a) (uid a) (gid a) (rdev a) (refs a) (size a) t (mtime a) (ctime a) (locked a).
Definition with_mtime t a := Attrs (mode a) (uid a) (gid a) (rdev a) (refs a) (size a) (atime a) t (ctime a) (locked a).
Definition with_ctime t a := Attrs (mode a) (uid a) (gid a) (rdev a) (refs a) (size a) (atime a) (mtime a) t (locked a).
Definition with_mode m a := Attrs m (uid a) (gid a) (rdev a) (refs a) (size a) (atime a) (mtime a) (ctime a) (locked a).
Definition with_uid u a := Attrs (mode a) u (gid a) (rdev a) (refs a) (size a) (atime a) (mtime a) (ctime a) (locked a).
Definition with_gid g a := Attrs (mode a) (uid a) g (rdev a) (refs a) (size a) (atime a) (mtime a) (ctime a) (locked a).
Definition with_refs r a := Attrs (mode a) (uid a) (gid a) (rdev a) r (size a) (atime a) (mtime a) (ctime a) (locked a).
Definition with_size n a := Attrs (mode a) (uid a) (gid a) (rdev a) (refs a) n (atime a) (mtime a) (ctime a) (locked a).
Definition upd (i : N) (f : attrs -> attrs) : state -> state := set_inodes (alter f i).

Definition fmt (m : N) : N := N.land m 0xf000.
Definition is_dir (a : attrs) : bool := fmt (mode a) =? 0x4000.
Definition is_reg (a : attrs) : bool := fmt (mode a) =? 0x8000.
Definition is_fifo (a : attrs) : bool := fmt (mode a) =? 0x1000.
Definition is_blk (a : attrs) : bool := fmt (mode a) =? 0x6000.
Definition CTRL : N := 0.
Definition children (i : N) (s : state) : bool := existsb (fun kv : N * N * N => kv.1.1 =? i) (map_to_list (contents s)).

Section fs.
Context (B : N).

(** 208-209, 227-228, 1256-1257 *)
Definition accessed (t : Z) (i : N) : state -> state := upd i (fun a => if ((atime a <? ctime a) || (atime a <? mtime a))%Z then with_atime t a else a).

(** 162-189, entries only *)
Definition look (p n : N) (s : state) : option (N * attrs) := i ← contents s !! (p, n); a ← inodes s !! i; Some (i, a).
Definition open_plus (i : N) : state -> state := set_opened (fun o => <[i := default 0 (o !! i) + 1]> o).

(** 674-697 *)
Definition purge (i : N) (s : state) : state :=
  set_inodes (delete i) (set_targets (delete i) (set_xattrs (fun x => filter (fun kv => kv.1.1 <> i) x) (set_data (fun d => filter (fun kv => kv.1.1 <> i) d) s))).
(** 1375-1389 *)
Definition forget1 (i n : N) (s : state) : state :=
  let k := default 0 (opened s !! i) - n in
  if k =? 0 then let s := set_opened (delete i) s in match inodes s !! i with Some a => if refs a =? 0 then purge i s else s | None => s end
  else set_opened <[i := k]> s.

(** 699-729 without [force] *)
Definition remove (t : Z) (p n i : N) (s : state) : result * state :=
  if children i s then (Err ENOTEMPTY, s)
  else match inodes s !! p with
  | None => (Err ENOENT, s)
  | Some a =>
    if locked a then (Err EPERM, s)
    else
      let s := set_contents (delete (p, n)) s in
      let s := upd i (fun a => with_ctime t (with_refs (refs a - 1) a)) s in
      let s := upd p (fun a => with_ctime t (with_mtime t a)) s in
      (* 728: not taken, the lookup of the caller counts *)
      (Ok, s)
  end.
(** 640-653 *)
Definition unlink (t : Z) (p n : N) (s : state) : result * state :=
  if failsafe s then (Err EPERM, s)
  else match look p n s with
  | None => (Err ENOENT, s)
  | Some (i, a) =>
    let s := open_plus i s in
    if is_dir a then (Err EISDIR, s)
    else match remove t p n i s with (Ok, s) => (Ok, forget1 i 1 s) | r => r end
  end.
(** 655-671 *)
Definition rmdir (t : Z) (p n : N) (s : state) : result * state :=
  if failsafe s then (Err EPERM, s)
  else match look p n s with
  | None => (Err ENOENT, s)
  | Some (i, a) =>
    let s := open_plus i s in
    match inodes s !! p with
    | None => (Err ENOENT, s)
    | Some b =>
      if locked b then (Err EPERM, s) else if negb (is_dir a) then (Err ENOTDIR, s)
      else match remove t p n i s with (Ok, s) => (Ok, forget1 i 1 s) | r => r end
    end
  end.

(** 1181-1235. The INSERT fails if the entry exists (the kernel has looked it up before) *)
Definition create_inode (t : Z) (p n m u g dev sz : N) (s : state) : result * N * state :=
  if n =? CTRL then (Err EACCES, 0, s)
  else match inodes s !! p with
  | None => (Err ENOENT, 0, s)
  | Some a =>
    if locked a then (Err EPERM, 0, s) else if refs a =? 0 then (Err EINVAL, 0, s)
    else match contents s !! (p, n) with
    | Some _ => (Err EEXIST, 0, s)
    | None =>
      let s := upd p (fun a => with_ctime t (with_mtime t a)) s in
      let '(g, m) := if negb (N.land (mode a) 0x400 =? 0) then (gid a, if fmt m =? 0x4000 then N.lor m 0x400 else m) else (g, m) in
      let i := next s in
      let s := set_contents <[(p, n) := i]> (set_inodes <[i := Attrs m u g dev 1 sz t t t false]> s) in
      (Ok, i, State (inodes s) (contents s) (data s) (xattrs s) (targets s) (opened s) (failsafe s) (i + 1))
    end
  end.
(** mknod 1017-1025, mkdir 1027-1035; [dev] = 0 for directories *)
Definition mknod (t : Z) (p n m u g dev : N) (s : state) : result * state :=
  if failsafe s then (Err EPERM, s) else match create_inode t p n m u g dev 0 s with (Ok, i, s) => (Ok, open_plus i s) | (e, _, s) => (e, s) end.
(** 731-763 *)
Definition symlink (t : Z) (p n u g : N) (target : list N) (s : state) : result * state :=
  if failsafe s then (Err EPERM, s)
  else match create_inode t p n 0xa1ff u g 0 (N.of_nat (length target)) s with
  | (Ok, i, s) => (Ok, open_plus i (set_targets <[i := target]> s))
  | (e, _, s) => (e, s)
  end.

(** 765-807, 837-857, 858-902; [flags]: any *)
Definition rename (t : Z) (p n p' n' : N) (flags : bool) (s : state) : result * state :=
  if flags then (Err ENOTSUP, s)
  else if (n =? CTRL) || (n' =? CTRL) then (Err EACCES, s)
  else match inodes s !! p, inodes s !! p' with
  | Some a, Some a' =>
    if failsafe s || locked a || locked a' then (Err EPERM, s)
    else match look p n s with
    | None => (Err ENOENT, s)
    | Some (i, _) =>
      let s := open_plus i s in
      match look p' n' s with
      | Some (j, _) =>
        let s := open_plus j s in
        if children j s then (Err EINVAL, s)
        else
          let s := set_contents (delete (p, n)) (set_contents <[(p', n') := i]> s) in
          let s := upd j (fun a => with_ctime t (with_refs (refs a - 1) a)) s in
          let s := upd p (fun a => with_mtime t (with_ctime t a)) s in
          let s := upd p' (fun a => with_mtime t (with_ctime t a)) s in
          (Ok, forget1 j 1 (forget1 i 1 s))
      | None =>
        let s := set_contents (fun c => <[(p', n') := i]> (delete (p, n) c)) s in
        let s := upd p (fun a => with_ctime t (with_mtime t a)) s in
        let s := upd p' (fun a => with_ctime t (with_mtime t a)) s in
        (Ok, forget1 i 1 s)
      end
    end
  | _, _ => (Err ENOENT, s)
  end.

(** 904-941 *)
Definition link (t : Z) (i p n : N) (s : state) : result * state :=
  if n =? CTRL then (Err EACCES, s)
  else match inodes s !! p, inodes s !! i with
  | Some a, Some _ =>
    if refs a =? 0 then (Err EINVAL, s) else if failsafe s || locked a then (Err EPERM, s)
    else match contents s !! (p, n) with
    | Some _ => (Err EEXIST, s)
    | None =>
      let s := upd p (fun a => with_mtime t (with_ctime t a)) s in
      let s := set_contents <[(p, n) := i]> s in
      let s := upd i (fun a => with_ctime t (with_refs (refs a + 1) a)) s in
      (Ok, open_plus i s)
    end
  | _, _ => (Err ENOENT, s)
  end.

(** 352-358: other attributes than those of the control file and ACLs *)
Definition setxattr (t : Z) (i n : N) (v : list N) (s : state) : result * state :=
  match inodes s !! i with
  | None => (Err ENOENT, s)
  | Some a => if failsafe s || locked a then (Err EPERM, s) else (Ok, upd i (with_ctime t) (set_xattrs <[(i, n) := v]> s))
  end.
(** 360-377 *)
Definition removexattr (t : Z) (i n : N) (s : state) : result * state :=
  match inodes s !! i with
  | None => (Err ENOENT, s)
  | Some a =>
    if failsafe s || locked a then (Err EPERM, s)
    else match xattrs s !! (i, n) with None => (Err ENOATTR, s) | Some _ => (Ok, upd i (with_ctime t) (set_xattrs (delete (i, n)) s)) end
  end.

(** 943-1015. Which attributes are to be changed *)
Record fields := Fields { f_mode : option N; f_uid : option N; f_gid : option N; f_atime : option Z; f_mtime : option Z; f_size : option N }.
(** int.bit_length() > 63 *)
Definition too_big (z : Z) : bool := (2 ^ 63 <=? Z.abs z)%Z.
Definition opt {A} (f : A -> attrs -> attrs) (o : option A) (i : N) (s : state) : state := match o with Some x => upd i (f x) s | None => s end.
Definition cut (i len : N) : state -> state := set_data (fun d => filter (fun kv => kv.1.1 = i -> kv.1.2 < len) d).
Definition setattr (t : Z) (bad : N -> bool) (i : N) (f : fields) (s : state) : result * state :=
  match inodes s !! i with
  | None => (Err ENOENT, s)
  | Some a =>
    if failsafe s || locked a then (Err EPERM, s)
    else
      let s := opt with_gid (f_gid f) i (opt with_uid (f_uid f) i (opt with_mode (f_mode f) i s)) in
      if match f_atime f with Some z => too_big z | None => false end then (Err EINVAL, s)
      else
        let s := opt with_atime (f_atime f) i s in
        if match f_mtime f with Some z => too_big z | None => false end then (Err EINVAL, s)
        else
          let s := upd i (with_ctime t) (opt with_mtime (f_mtime f) i s) in
          match f_size f with
          | None => (Ok, s)
          | Some len =>
            let s := upd i (with_size len) s in
            if len mod B =? 0 then (Ok, cut i len s)
            else
              let s' := cut i ((len / B + 1) * B) s in
              if bad (len / B) then (Err EIO, fail_safe s') else (Ok, cut i len s')
          end
  end.

(** 1112-1142; [wr]: O_RDWR or O_WRONLY *)
Definition open (t : Z) (bad : N -> bool) (i : N) (wr trunc : bool) (s : state) : result * state :=
  match inodes s !! i with
  | None => (Err ENOENT, s)
  | Some a =>
    if wr && (failsafe s || locked a) then (Err EPERM, s)
    else if trunc then
      if negb wr then (Err EINVAL, s)
      else if is_reg a then setattr t bad i (Fields None None None None (Some t) (Some 0)) s
      else if is_fifo a || is_blk a then (Ok, s) else (Err EINVAL, s)
    else (Ok, s)
  end.
(** 1157-1179 *)
Definition create (t : Z) (bad : N -> bool) (p n m u g : N) (wr trunc : bool) (s : state) : result * state :=
  if failsafe s then (Err EPERM, s)
  else match contents s !! (p, n) with
  | None => match create_inode t p n m u g 0 0 s with (Ok, i, s) => (Ok, open_plus i s) | (e, _, s) => (e, s) end
  | Some i => match open t bad i wr trunc s with (Ok, s) => (Ok, open_plus i s) | r => r end
  end.

(** 197-213 *)
Definition readlink (t : Z) (i : N) (s : state) : result * state :=
  match inodes s !! i with
  | None => (Err ENOENT, s)
  | Some _ => let s := accessed t i s in match targets s !! i with Some _ => (Ok, s) | None => (Err EINVAL, s) end
  end.
(** 219-247, the time stamp *)
Definition readdir (t : Z) (i : N) (s : state) : result * state := match inodes s !! i with None => (Err ENOENT, s) | Some _ => (Ok, accessed t i s) end.

(** 1237-1259, 1303-1363. The blocks that are read *)
Fixpoint blocks_bad (fuel : nat) (bad : N -> bool) (off len : N) : bool :=
  match fuel with O => false | S fuel => if len =? 0 then false else bad (off / B) || let k := N.min len (B - off mod B) in blocks_bad fuel bad (off + k) (len - k) end.
Definition read (t : Z) (bad : N -> bool) (i off len : N) (s : state) : result * state :=
  match inodes s !! i with
  | None => (Err ENOENT, s)
  | Some a => let len := N.min (size a - off) len in if blocks_bad (S (N.to_nat len)) bad off len then (Err EIO, fail_safe s) else (Ok, accessed t i s)
  end.
(** 1261-1287, 1303-1363 *)
Fixpoint put_bytes (i off : N) (buf : list N) (d : gmap (N * N) N) : gmap (N * N) N := match buf with [] => d | b :: buf => put_bytes i (off + 1) buf (<[(i, off) := b]> d) end.
Fixpoint write_blocks (fuel : nat) (bad : N -> bool) (i off : N) (buf : list N) (s : state) : bool * state :=
  match fuel with
  | O => (true, s)
  | S fuel =>
    match buf with
    | [] => (true, s)
    | _ => if bad (off / B) then (false, fail_safe s)
           else let k := N.to_nat (N.min (N.of_nat (length buf)) (B - off mod B)) in write_blocks fuel bad i (off + N.of_nat k) (drop k buf) (set_data (put_bytes i off (take k buf)) s)
    end
  end.
Definition write (t : Z) (bad : N -> bool) (i off : N) (buf : list N) (s : state) : result * state :=
  match inodes s !! i with
  | None => (Err ENOENT, s)
  | Some a =>
    if failsafe s || locked a then (Err EPERM, s)
    else match write_blocks (S (length buf)) bad i off buf s with
    | (false, s) => (Err EIO, s)
    | (true, s) => (Ok, upd i (fun a => with_ctime t (with_mtime t (with_size (N.max (size a) (off + N.of_nat (length buf))) a))) s)
    end
  end.

Inductive op :=
  | Lookup (p n : N) | Getattr (i : N) | Forget (i n : N) | Fsync (i : N) | Readlink (i : N) | Readdir (i : N) | Read (i off len : N)
  | Unlink (p n : N) | Rmdir (p n : N) | Mknod (p n m u g dev : N) | Symlink (p n u g : N) (target : list N) | Rename (p n p' n' : N) (flags : bool) | Link (i p n : N)
  | Setxattr (i n : N) (v : list N) | Removexattr (i n : N) | Setattr (i : N) (f : fields) | Open (i : N) (wr trunc : bool) | Create (p n m u g : N) (wr trunc : bool)
  | Write (i off : N) (buf : list N).
Definition step (t : Z) (bad : N -> bool) (o : op) (s : state) : result * state :=
  match o with
  | Lookup p n => match look p n s with Some (i, _) => (Ok, open_plus i s) | None => (Err ENOENT, s) end
  | Getattr i => (match inodes s !! i with Some _ => Ok | None => Err ENOENT end, s)
  | Forget i n => (Ok, forget1 i n s)
  | Fsync _ => (Ok, s)
  | Readlink i => readlink t i s
  | Readdir i => readdir t i s
  | Read i off len => read t bad i off len s
  | Unlink p n => unlink t p n s
  | Rmdir p n => rmdir t p n s
  | Mknod p n m u g dev => mknod t p n m u g dev s
  | Symlink p n u g target => symlink t p n u g target s
  | Rename p n p' n' flags => rename t p n p' n' flags s
  | Link i p n => link t i p n s
  | Setxattr i n v => setxattr t i n v s
  | Removexattr i n => removexattr t i n s
  | Setattr i f => setattr t bad i f s
  | Open i wr trunc => open t bad i wr trunc s
  | Create p n m u g wr trunc => create t bad p n m u g wr trunc s
  | Write i off buf => write t bad i off buf s
  end.
End fs.
