(** LinkedDict, src/s3ql/_linked_dict.py: a hash map into a doubly linked list of nodes on a heap, with
    cursor nodes for iterations in progress.  Node 0 is [_head], node 1 is [_tail].  Keys are numbers.
    [None] as the result of a heap operation is Python's AttributeError on a [None] pointer. *)
From stdpp Require Import prelude list gmap.

Section model.
Context {V : Type}.

(** _Node.key: [NNone] for head and tail, [NCursor] is [_CURSOR_KEY] (_linked_dict.py:15). *)
Inductive nkey := NNone | NKey (k : nat) | NCursor.

(** _linked_dict.py:18-30 *)
Record node := Node { n_key : nkey; n_val : option V; n_prev : option nat; n_next : option nat }.
Notation heap := (gmap nat node).

Definition set_prev (x : nat) (p : option nat) (h : heap) : option heap :=
  match h !! x with Some n => Some (<[x := Node (n_key n) (n_val n) p (n_next n)]> h) | None => None end.
Definition set_next (x : nat) (p : option nat) (h : heap) : option heap :=
  match h !! x with Some n => Some (<[x := Node (n_key n) (n_val n) (n_prev n) p]> h) | None => None end.
Definition set_val (x : nat) (v : V) (h : heap) : option heap :=
  match h !! x with Some n => Some (<[x := Node (n_key n) (Some v) (n_prev n) (n_next n)]> h) | None => None end.
Definition get_prev (x : nat) (h : heap) : option nat :=
  match h !! x with Some n => n_prev n | None => None end.
Definition get_next (x : nat) (h : heap) : option nat :=
  match h !! x with Some n => n_next n | None => None end.

(** [_head] and [_tail] *)
Definition hd : nat := 0.
Definition tl : nat := 1.

(** Lines 95-99 and 137-141: link [x] in front of the tail. *)
Definition append (x : nat) (h : heap) : option heap :=
  match get_prev tl h with
  | None => None
  | Some prev =>
    h ← set_prev x (Some prev) h;
    h ← set_next x (Some tl) h;
    h ← set_next prev (Some x) h;
    set_prev tl (Some x) h
  end.

(** [_unlink] 143-150, and the [finally] clause 226-233. *)
Definition unlink (x : nat) (h : heap) : option heap :=
  match get_prev x h, get_next x h with
  | Some prev, Some nxt =>
    h ← set_next prev (Some nxt) h;
    h ← set_prev nxt (Some prev) h;
    h ← set_prev x None h;
    set_next x None h
  | _, _ => None
  end.

(** Lines 202-207: insert the cursor behind the head. *)
Definition start (c : nat) (h : heap) : option heap :=
  match get_next hd h with
  | None => None
  | Some head_next =>
    h ← set_prev c (Some hd) h;
    h ← set_next c (Some head_next) h;
    h ← set_prev head_next (Some c) h;
    set_next hd (Some c) h
  end.

(** The loop 209-225: [Some (h, Some (k, v))] yields the value [v] (the key is only shown for the
    specification), [Some (h, None)] returns. *)
Fixpoint advance (fuel : nat) (c : nat) (h : heap) : option (heap * option (nat * V)) :=
  match fuel with
  | 0 => None
  | S fuel =>
    match get_next c h with
    | None => None
    | Some nxt =>
      if decide (nxt = tl) then Some (h, None) else
      match get_prev c h, get_next nxt h with
      | Some prev, Some after =>
        h ← set_next prev (Some nxt) h;
        h ← set_prev nxt (Some prev) h;
        h ← set_next nxt (Some c) h;
        h ← set_prev c (Some nxt) h;
        h ← set_next c (Some after) h;
        h ← set_prev after (Some c) h;
        match h !! nxt with
        | Some (Node NCursor _ _ _) => advance fuel c h
        | Some (Node (NKey k) (Some v) _ _) => Some (h, Some (k, v))
        | _ => None
        end
      | _, _ => None
      end
    end
  end.

(** [_linked_list_length] 152-166 *)
Fixpoint count (fuel : nat) (x : nat) (h : heap) : option nat :=
  match fuel with
  | 0 => None
  | S fuel => if decide (x = tl) then Some 0 else
              match get_next x h with None => None | Some y => n ← count fuel y h; Some (S n) end
  end.

(** A generator object: not in the map if [next()] was never called on it. *)
Inductive gen := Running (c : nat) | Finished.

Record state := State { mem : heap; data : gmap nat nat; fresh : nat; gens : gmap nat gen }.

(** [__init__] 53-59 *)
Definition init : state :=
  State (<[hd := Node NNone None None (Some tl)]> {[tl := Node NNone None (Some hd) None]}) ∅ 2 ∅.

Inductive op :=
| Len | Contains (k : nat) | GetItem (k : nat) | GetDef (k : nat)
| SetItem (k : nat) (v : V) | Del (k : nat) | Pop (k : nat) | Move (k : nat)
| LinkLen
| Next (g : nat)     (* next(g), for a generator made by mutable_values() *)
| Close (g : nat).   (* g.close(), or g being garbage collected *)

Inductive answer :=
| ANum (n : nat) | ABool (b : bool) | AVal (v : option V) | ADone
| AKeyError | AYield (k : nat) (v : V) | AStop | ACrash.

Definition crash (s : state) : state * answer := (s, ACrash).
Definition with_mem (s : state) (r : option heap) (a : answer) : state * answer :=
  match r with Some h => (State h (data s) (fresh s) (gens s), a) | None => crash s end.

Definition val_of (x : nat) (s : state) : option V :=
  match mem s !! x with Some n => n_val n | None => None end.

Definition step (s : state) (o : op) : state * answer :=
  match o with
  | Len => (s, ANum (size (data s)))
  | Contains k => (s, ABool (bool_decide (is_Some (data s !! k))))
  | GetItem k => match data s !! k with Some x => (s, AVal (val_of x s)) | None => (s, AKeyError) end
  | GetDef k => match data s !! k with Some x => (s, AVal (val_of x s)) | None => (s, AVal None) end
  | SetItem k v =>
    (* 78-100 *)
    match data s !! k with
    | Some x => with_mem s (set_val x v (mem s)) ADone
    | None =>
      let x := fresh s in
      match append x (<[x := Node (NKey k) (Some v) None None]> (mem s)) with
      | Some h => (State h (<[k := x]> (data s)) (S x) (gens s), ADone)
      | None => crash s
      end
    end
  | Del k =>
    match data s !! k with
    | None => (s, AKeyError)
    | Some x => with_mem (State (mem s) (delete k (data s)) (fresh s) (gens s)) (unlink x (mem s)) ADone
    end
  | Pop k =>
    match data s !! k with
    | None => (s, AKeyError)
    | Some x => with_mem (State (mem s) (delete k (data s)) (fresh s) (gens s)) (unlink x (mem s))
                         (AVal (val_of x s))
    end
  | Move k =>
    (* 131-141 *)
    match data s !! k with
    | None => (s, AKeyError)
    | Some x => with_mem s (h ← unlink x (mem s); append x h) ADone
    end
  | LinkLen =>
    match get_next hd (mem s) with
    | None => crash s
    | Some x => match count (S (size (mem s))) x (mem s) with Some n => (s, ANum n) | None => crash s end
    end
  | Next g =>
    let go (c : nat) (s : state) :=
      match advance (size (mem s)) c (mem s) with
      | None => crash s
      | Some (h, Some (k, v)) => (State h (data s) (fresh s) (<[g := Running c]> (gens s)), AYield k v)
      | Some (h, None) =>
        match unlink c h with
        | None => crash s
        | Some h => (State h (data s) (fresh s) (<[g := Finished]> (gens s)), AStop)
        end
      end in
    match gens s !! g with
    | Some Finished => (s, AStop)
    | Some (Running c) => go c s
    | None =>
      let c := fresh s in
      match start c (<[c := Node NCursor None None None]> (mem s)) with
      | None => crash s
      | Some h => go c (State h (data s) (S c) (gens s))
      end
    end
  | Close g =>
    match gens s !! g with
    | Some Finished => (s, ADone)
    | None => (State (mem s) (data s) (fresh s) (<[g := Finished]> (gens s)), ADone)
    | Some (Running c) =>
      match unlink c (mem s) with
      | None => crash s
      | Some h => (State h (data s) (fresh s) (<[g := Finished]> (gens s)), ADone)
      end
    end
  end.

Fixpoint run (s : state) (os : list op) : state * list answer :=
  match os with
  | [] => (s, [])
  | o :: os => let (s, a) := step s o in let (s, l) := run s os in (s, a :: l)
  end.
End model.
Arguments node : clear implicits.
Notation heap V := (gmap nat (node V)) (only parsing).
Arguments state : clear implicits.
Arguments op : clear implicits.
Arguments answer : clear implicits.
