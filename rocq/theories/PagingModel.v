(** Listing the objects of a bucket page by page: backends/s3c.py list and _list_page (257-318), backends/gs.py (358-402), backends/swift.py
    (785-838). Keys are strings as lists of code points. Parsing of XML and JSON and the @retry of _list_page (which has no effect but its result) are left
    out: [serve n …] is what the n-th request that is answered gets. *)
From stdpp Require Import prelude.
Notation key := (list nat).

(** The loop of list, the same in the three classes: pages until the token is None. [page n token] gives the names and the next token, or an exception.
    The result: what was yielded, and whether the loop ended (without exception). [None]: [fuel] pages were not enough. *)
Inductive ending := Ended | Raised.
Section loop.
Context {token : Type} (page : nat -> option token -> option (list key * option token)).
Fixpoint pages (fuel n : nat) (tok : option token) (acc : list key) : option (list key * ending) :=
  match fuel with
  | 0 => None
  | S fuel => match page n tok with
      | None => Some (acc, Raised)
      | Some (els, None) => Some (acc ++ els, Ended)
      | Some (els, Some t) => pages fuel (S n) (Some t) (acc ++ els)
      end
  end.
End loop.

(** * s3c *)
(** The parts of a ListBucketResult; [next_marker]: [None] if the element is missing, [Some None] if it is empty *)
Record s3_page := S3Page { s3_names : list key; s3_truncated : bool; s3_next_marker : option (option key) }.
Section s3.
Context (serve : nat -> key -> option key -> nat -> s3_page).
(** The truth value of a token (s3c.py 275): the empty string is false *)
Definition sent (tok : option key) : option key := match tok with Some [] => None | _ => tok end.
(** _list_page, 268-318 *)
Definition s3_list_page (prefix : key) (n : nat) (tok : option key) : option (list key * option key) :=
  let p := serve n prefix (sent tok) 1000 in
  if negb (s3_truncated p) then Some (s3_names p, None)
  else match last (s3_names p) with
    | None => match s3_next_marker p with None => None | Some m => Some ([], m) end
    | Some k => Some (s3_names p, Some k)
    end.
(** list, 257-266 *)
Definition s3_list (fuel : nat) (base prefix : key) : option (list key * ending) :=
  match pages (s3_list_page (base ++ prefix)) fuel 0 None [] with Some (els, e) => Some (drop (length base) <$> els, e) | None => None end.
End s3.

(** * swift *)
Section swift.
Context (temporary : key -> bool) (* name.endswith(TEMP_SUFFIX) *) (serve : nat -> key -> option key -> nat -> list key) (* an answer 204 is the empty list *).
(** _list_page, 796-838 *)
Definition sw_list_page (batch_size : nat) (prefix : key) (n : nat) (tok : option key) : option (list key * option key) :=
  let all := serve n prefix (sent tok) batch_size in
  Some (List.filter (fun k => negb (temporary k)) all, match last all with Some l => if decide (length all = batch_size) then Some l else None | None => None end).
Definition sw_list (fuel batch_size : nat) (base prefix : key) : option (list key * ending) :=
  match pages (sw_list_page batch_size (base ++ prefix)) fuel 0 None [] with Some (els, e) => Some (drop (length base) <$> els, e) | None => None end.
End swift.

(** * gs: tokens are opaque *)
Section gs.
Context {token : Type} (serve : nat -> key -> option token -> nat -> option (list key) * option token).
(** _list_page, 371-402: the assertion is an exception *)
Definition gs_list_page (prefix : key) (n : nat) (tok : option token) : option (list key * option token) :=
  match serve n prefix tok 1000 with
  | (None, None) => Some ([], None)
  | (None, Some _) => None
  | (Some items, next) => Some (items, next)
  end.
Definition gs_list (fuel : nat) (base prefix : key) : option (list key * ending) :=
  match pages (gs_list_page (base ++ prefix)) fuel 0 None [] with Some (els, e) => Some (drop (length base) <$> els, e) | None => None end.
End gs.
