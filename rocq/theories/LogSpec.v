(** What a terminal shows, and what it should show *)
From stdpp Require Import prelude strings.
From Coq Require Import Ascii.

Notation text := (list ascii).
(** A terminal with lines of any length: the lines above the cursor (the latest one first), the line of the cursor, its column *)
Record screen := Screen { above : list text; line : text; col : nat }.
Definition put (s : screen) (c : ascii) : screen :=
  if decide (c = "010"%char) then Screen (line s :: above s) [] 0
  else if decide (c = "013"%char) then Screen (above s) (line s) 0
  else Screen (above s) (take (col s) (line s) ++ c :: drop (S (col s)) (line s)) (S (col s)).
Definition show (s : screen) (t : text) : screen := foldl put s t.
Definition blank : screen := Screen [] [] 0.

(** Messages: of some kind, whether they replace the one before if that is of the same kind, whether they are the last one of the series *)
Section lines.
Context {kind : Type} `{EqDecision kind}.
Record message := Message { of : kind; replaces : bool; final : bool; words : text }.
(** [join new old]: what becomes of the old message *)
Definition seen_step (join : text -> text -> text) (s : list text * option (kind * text)) (m : message) : list text * option (kind * text) :=
  let (d, cur) := s in
  if replaces m then
    let same := match cur with Some (k, _) => bool_decide (k = of m) | None => false end in
    let old := match cur with Some (_, t) => t | None => [] end in
    let t := if same then join (words m) old else words m in
    let d := if same then d else match cur with Some (_, t) => t :: d | None => d end in
    if final m then (t :: d, None) else (d, Some (of m, t))
  else (words m :: match cur with Some (_, t) => t :: d | None => d end, None).
Definition seen_lines (join : text -> text -> text) (s : list text * option (kind * text)) (ms : list message) : list text * option (kind * text) := foldl (seen_step join) s ms.
End lines.
Arguments message : clear implicits.
(** As it should be: the new message instead of the old one. As it is on a terminal: the new one over the old one. *)
Definition instead (new old : text) : text := new.
Definition over (new old : text) : text := new ++ drop (length new) old.
