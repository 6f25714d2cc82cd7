(** The inode cache, src/s3ql/inode_cache.py.  [A] is the type of a row's attributes (inode_cache.py:23-49).
    Inode objects are shared by reference, so they live in a heap; [vars] are the variables in which
    callers keep the objects they were given. *)
From stdpp Require Import prelude list gmap.

Section model.
Context {A : Type}.

Record obj := Obj { o_id : nat; o_attrs : A; o_dirty : bool }.

(** [db]: the inodes table; [nextid]: AUTOINCREMENT counter (database.py:679-697); [attrs],
    [rows], [pos]: InodeCache.attrs, cached_rows, pos. *)
Record state := State {
  db : gmap nat A;
  nextid : nat;
  objs : gmap nat obj;
  nobj : nat;
  attrs : gmap nat nat;
  rows : list (option nat);
  pos : nat;
  vars : gmap nat nat
}.

(** [InodeCache.setattr] inode_cache.py:249-257 *)
Definition write_back (oid : nat) (s : state) : state :=
  match objs s !! oid with
  | Some (Obj id a true) =>
    State (alter (fun _ => a) id (db s)) (nextid s) (<[oid := Obj id a false]> (objs s)) (nobj s)
          (attrs s) (rows s) (pos s) (vars s)
  | _ => s
  end.

Definition set_attrs (f : gmap nat nat -> gmap nat nat) (s : state) : state :=
  State (db s) (nextid s) (objs s) (nobj s) (f (attrs s)) (rows s) (pos s) (vars s).

(** The loop body of [destroy] (268-279) and of [__getitem__] (214-223): drop one row. *)
Definition expire (old : option nat) (s : state) : state :=
  match old with
  | None => s
  | Some id =>
    match attrs s !! id with
    | None => s
    | Some oid => write_back oid (set_attrs (delete id) s)
    end
  end.

(** [InodeCache.__getitem__] 203-225, [getattr] 227-236; returns the object. *)
Definition getitem (n id : nat) (s : state) : state * option nat :=
  match attrs s !! id with
  | Some oid => (s, Some oid)
  | None =>
    match db s !! id with
    | None => (s, None)   (* KeyError *)
    | Some a =>
      let oid := nobj s in
      let old := mjoin (rows s !! pos s) in
      let s := State (db s) (nextid s) (<[oid := Obj id a false]> (objs s)) (S oid) (attrs s)
                     (<[pos s := Some id]> (rows s)) ((pos s + 1) mod n) (vars s) in
      let s := expire old s in
      (set_attrs (insert id oid) s, Some oid)
    end
  end.

(** [create_inode] 238-247 *)
Definition create (n : nat) (a : A) (s : state) : state * option nat :=
  let id := nextid s in
  getitem n id (State (<[id := a]> (db s)) (S id) (objs s) (nobj s) (attrs s) (rows s) (pos s) (vars s)).

Definition set_var (v : nat) (r : state * option nat) : state * option nat :=
  match r with
  | (s, Some oid) =>
    (State (db s) (nextid s) (objs s) (nobj s) (attrs s) (rows s) (pos s) (<[v := oid]> (vars s)), Some oid)
  | (s, None) => (s, None)
  end.

(** Attribute assignment, [_Inode.__setattr__] 113-116 *)
Definition assign (v : nat) (a : A) (s : state) : option state :=
  match vars s !! v with
  | None => None
  | Some oid =>
    match objs s !! oid with
    | None => None
    | Some o => Some (State (db s) (nextid s) (<[oid := Obj (o_id o) a true]> (objs s)) (nobj s) (attrs s)
                            (rows s) (pos s) (vars s))
    end
  end.

(** [__delitem__] 196-201; [None] is the KeyError. *)
Definition delitem (id : nat) (s : state) : option state :=
  match db s !! id with
  | None => None
  | Some _ =>
    let ob := match attrs s !! id with
              | Some oid => alter (fun o => Obj (o_id o) (o_attrs o) false) oid (objs s)
              | None => objs s
              end in
    Some (State (delete id (db s)) (nextid s) ob (nobj s) (delete id (attrs s)) (rows s) (pos s) (vars s))
  end.

(** [flush_id] 259-261 *)
Definition flush_id (id : nat) (s : state) : state :=
  match attrs s !! id with Some oid => write_back oid s | None => s end.

(** [flush] 283-297 *)
Definition flush (s : state) : state :=
  foldl (fun s r => match r with Some id => flush_id id s | None => s end) s (rows s).

(** [destroy] 263-281, also used by [drop] 299 *)
Definition destroy (s : state) : state :=
  let s' := foldl (fun s r => expire r s) s (rows s) in
  State (db s') (nextid s') (objs s') (nobj s') (attrs s') (replicate (length (rows s')) None) (pos s') (vars s').

Inductive op :=
| Get (v id : nat)        (* v = cache[id] *)
| Create (v : nat) (a : A) (* v = cache.create_inode(a) *)
| Assign (v : nat) (a : A) (* change attributes of v *)
| Peek (v : nat)          (* look at the attributes of v *)
| Del (id : nat)          (* del cache[id] *)
| FlushId (id : nat)
| Flush
| Drop.

Inductive answer := AAttrs (id : nat) (a : A) | ADone | AError.

Definition show (r : state * option nat) : state * answer :=
  match r with
  | (s, Some oid) => match objs s !! oid with
                     | Some o => (s, AAttrs (o_id o) (o_attrs o))
                     | None => (s, AError)
                     end
  | (s, None) => (s, AError)
  end.

Definition step (n : nat) (s : state) (o : op) : state * answer :=
  match o with
  | Get v id => show (set_var v (getitem n id s))
  | Create v a => show (set_var v (create n a s))
  | Assign v a => match assign v a s with Some s => (s, ADone) | None => (s, AError) end
  | Peek v => show (s, vars s !! v)
  | Del id => match delitem id s with Some s => (s, ADone) | None => (s, AError) end
  | FlushId id => (flush_id id s, ADone)
  | Flush => (flush s, ADone)
  | Drop => (destroy s, ADone)
  end.

Fixpoint run (n : nat) (s : state) (os : list op) : state * list answer :=
  match os with
  | [] => (s, [])
  | o :: os => let (s, a) := step n s o in let (s, l) := run n s os in (s, a :: l)
  end.

(** [__init__] 180-194 on an existing table; [next] is larger than every id in it. *)
Definition init (n : nat) (table : gmap nat A) (next : nat) : state :=
  State table next ∅ 0 ∅ (replicate n None) 0 ∅.

End model.
Arguments state : clear implicits.
Arguments op : clear implicits.
Arguments answer : clear implicits.
Arguments obj : clear implicits.
