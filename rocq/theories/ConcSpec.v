(** Files as byte arrays, on which each request takes effect at once: a read and a truncation when they begin, a write when it ends. *)
From stdpp Require Import prelude list gmap.
From Verif Require Import Files FileModel FileSpec ConcModel.

(** The arrays; requests in progress; the answers that are due *)
Record world := World { arrs : gmap nat file; flight : gmap nat request; due : gmap nat answer }.
Definition wstep (w : world) (e : event) : world :=
  match e with
  | New ino => World (<[ino := []]> (arrs w)) (flight w) (due w)
  | Begin t r =>
      let fl := <[t := r]> (flight w) in
      match r with
      | RRead ino off len => World (arrs w) fl (<[t := AData (fread off len (default [] (arrs w !! ino)))]> (due w))
      | RWrite ino off buf => World (arrs w) fl (due w)
      | RTrunc ino len => World (alter (ftrunc len) ino (arrs w)) fl (<[t := ADone]> (due w))
      end
  | Finish t =>
      match flight w !! t with
      | Some (RWrite ino off buf) => World (alter (fwrite off buf) ino (arrs w)) (delete t (flight w)) (<[t := ANum (length buf)]> (due w))
      | _ => World (arrs w) (delete t (flight w)) (due w)
      end
  | Work _ | Remove _ _ => w
  end.
Definition wrun (evs : list event) : world := foldl wstep (World ∅ ∅ ∅) evs.

(** What the kernel sends at the same time: requests for different files, or that do not overlap (pages that are being read or written are locked); nothing but the truncation itself during a truncation *)
Definition file_of (r : request) : nat := match r with RRead ino _ _ | RWrite ino _ _ | RTrunc ino _ => ino end.
Definition apart (off1 len1 off2 len2 : nat) : Prop := off1 + len1 <= off2 \/ off2 + len2 <= off1.
Definition compatible (r1 r2 : request) : Prop :=
  file_of r1 <> file_of r2 \/
  match r1, r2 with
  | RRead _ _ _, RRead _ _ _ => True
  | RRead _ off1 len, RWrite _ off2 buf | RWrite _ off2 buf, RRead _ off1 len => apart off1 len off2 (length buf)
  | RWrite _ off1 buf1, RWrite _ off2 buf2 => apart off1 (length buf1) off2 (length buf2)
  | _, _ => False
  end.
(** A number is used once; the file exists; writes are not empty; files are smaller than 2^53 bytes *)
Definition polite (w : world) (e : event) : Prop :=
  match e with
  | Begin t r =>
      flight w !! t = None /\ due w !! t = None /\ is_Some (arrs w !! file_of r) /\ (forall t' r', flight w !! t' = Some r' -> compatible r r') /\
      match r with RRead _ _ _ => True | RWrite _ off buf => buf <> [] /\ below_limit (off + length buf) | RTrunc _ len => below_limit len end
  | _ => True
  end.
Fixpoint all_polite (w : world) (evs : list event) : Prop := match evs with [] => True | e :: evs => polite w e /\ all_polite (wstep w e) evs end.
(** Steps of the [t]-th request *)
Definition is_of (t : nat) (e : event) : Prop := match e with Work t' | Remove t' _ | Finish t' => t' = t | _ => False end.
