(** Signed requests: src/s3ql/backends/s3c.py 598-683 (signature version 2, _do_request_inner), s3c4.py 160-258 (version 4), s3.py 92-141, b2ng.py 103-172
    (change of region), http.py 476-500 (headers that send_request adds or replaces), and the callers s3c.py 153-160, 247-440, s3c4.py 101-118.

    Strings are given by their UTF-8 encodings (quote and encode raise UnicodeEncodeError for strings that have none). Headers are a map from names in
    lower case (C58; the program writes all of the names it signs in lower case, and Content-MD5, Content-Type, Date, which are looked up). The digests are
    functions [sha256hex], [hmac], [hmachex], [hmacsha1] of any kind. The time is the pair of strings that strftime makes of it. Left out: the formats of the
    Authorization headers (its fields are a record), and the body, which is not signed (UNSIGNED-PAYLOAD). *)
From stdpp Require Import prelude gmap.
From Coq Require Import String.
From Verif Require Import Text Decimal CodecModel ConfigModel.
Local Close Scope string_scope.
Local Close Scope N_scope.
Local Open Scope nat_scope.
Local Open Scope list_scope.

(** sorted() on strings: by code points *)
Fixpoint lex (a b : text) : bool :=
  match a, b with [], _ => true | _ :: _, [] => false | x :: a, y :: b => if (x <? y)%N then true else if (y <? x)%N then false else lex a b end.
Fixpoint ins {A} (le : A -> A -> bool) (x : A) (l : list A) : list A := match l with [] => [x] | y :: l' => if le x y then x :: l else y :: ins le x l' end.
Definition sorted {A} (le : A -> A -> bool) (l : list A) : list A := foldr (ins le) [] l.
Fixpoint starts_with (p s : text) : bool := match p, s with [], _ => true | _ :: _, [] => false | x :: p, y :: s => (x =? y)%N && starts_with p s end.

(** urllib.parse: the characters quote leaves, quote(path), and quote_plus, which urlencode uses by default *)
Definition unreserved (c : N) : bool := ((65 <=? c) && (c <=? 90) || (97 <=? c) && (c <=? 122) || (48 <=? c) && (c <=? 57) || (c =? 95) || (c =? 46) || (c =? 45) || (c =? 126))%N.
Definition safe_path (c : N) : bool := unreserved c || (c =? 47)%N.
Definition quoted (safe : N -> bool) (b : text) : text := flat_map (quote_byte safe) b.
Definition quote_plus (b : text) : text := flat_map (fun c => if (c =? 32)%N then [43%N] else quote_byte unreserved c) b.

(** The attributes of the backend *)
Record config := Config { hostname : text; port : nat; ssl : bool; bucket : text; login : text; password : text; region : text }.
(** The arguments of _do_request *)
Record request := Request { method : text; path : text; subres : option text; query : list (text * text); headers : gmap text text }.
Definition number (n : nat) : text := N.of_nat <$> dec n.
(** What is called: prefix and key together are [k] *)
Inductive call := Delete (k : text) | ListPage (prefix : text) (n : nat) (token : option text) | Head (k : text) | Get (k : text) | Put (k : text) (h : gmap text text)
  | DeleteMulti (h : gmap text text) | Probe.
Definition request_of (c : call) : request :=
  match c with
  | Delete k => Request (lit "DELETE"%string) (47%N :: k) None [] ∅                                       (* s3c.py 252 *)
  | ListPage p n t => Request (lit "GET"%string) [47%N] None                                              (* s3c.py 274-279 *)
      ([(lit "prefix"%string, p); (lit "max-keys"%string, number n)] ++ match t with Some t => [(lit "marker"%string, t)] | None => [] end) ∅
  | Head k => Request (lit "HEAD"%string) (47%N :: k) None [] ∅                                           (* s3c.py 326, 342 *)
  | Get k => Request (lit "GET"%string) (47%N :: k) None [] ∅                                             (* s3c.py 367 *)
  | Put k h => Request (lit "PUT"%string) (47%N :: k) None [] h                                           (* s3c.py 421-427 *)
  | DeleteMulti h => Request (lit "POST"%string) [47%N] (Some (lit "delete"%string)) [] h                 (* s3c4.py 117-119 *)
  | Probe => Request (lit "HEAD"%string) [47%N] None [] ∅                                                 (* s3.py 111 *)
  end.

(** _do_request_inner, s3c.py 653-655 and 659-668: the path and the request target *)
Definition full_path (c : config) (r : request) : text := if starts_with (bucket c) (hostname c) then path r else 47%N :: bucket c ++ path r.
Definition urlencode (q : text -> text) (l : list (text * text)) : list text := (fun kv => q kv.1 ++ 61%N :: q kv.2) <$> l.
Definition target (c : config) (r : request) : text :=
  quoted safe_path (full_path c r) ++
  match query r, subres r with
  | [], None => []
  | [], Some s => 63%N :: s
  | l, None => 63%N :: join 38%N (urlencode quote_plus l)
  | l, Some s => 63%N :: s ++ 38%N :: join 38%N (urlencode quote_plus l)
  end.
(** send_request, http.py 476-488. [len]: the length of the body, [expect]: whether a stream is sent *)
Definition wire_host (c : config) : text :=
  let host := if decide (58%N ∈ hostname c) then 91%N :: hostname c ++ [93%N] else hostname c in
  if decide (port c = if ssl c then 443 else 80) then host else host ++ 58%N :: number (port c).
Definition setdefault (k v : text) (h : gmap text text) : gmap text text := match h !! k with Some _ => h | None => <[k := v]> h end.
Definition send_headers (c : config) (len : nat) (expect : bool) (h : gmap text text) : gmap text text :=
  let h := <[lit "content-length"%string := number len]> h in
  let h := if expect then <[lit "expect"%string := lit "100-continue"%string]> h else h in
  let h := <[lit "host"%string := wire_host c]> h in
  setdefault (lit "connection"%string) (lit "keep-alive"%string) (setdefault (lit "accept-encoding"%string) (lit "identity"%string) h).

Section digests.
Context (sha256hex : text -> text) (hmac hmachex hmacsha1 : text -> text -> text).

(** * Version 4 *)
(** 173-179: the headers that are signed *)
Definition sign_host (c : config) : text := if decide (port c = 443) then hostname c else hostname c ++ 58%N :: number (port c).
Definition UNSIGNED : text := lit "UNSIGNED-PAYLOAD"%string.
Definition v4_headers (c : config) (ymdhms : text) (h : gmap text text) : gmap text text :=
  delete (lit "authorization"%string)
    (<[lit "x-amz-content-sha256"%string := UNSIGNED]> (<[lit "x-amz-date"%string := ymdhms]> (<[lit "host"%string := sign_host c]> h))).
Definition names (h : gmap text text) : list text := sorted lex (map_to_list h).*1.
Definition header_line (h : gmap text text) (n : text) : text := n ++ 58%N :: strip (default [] (h !! n)).
(** 181-205 *)
Definition canonical_query (r : request) : text :=
  join 38%N (sorted lex (urlencode (quoted unreserved) (query r) ++ match subres r with Some s => [quoted safe_path s ++ [61%N]] | None => [] end)).
Definition canonical (m p q : text) (h : gmap text text) : text :=
  join 10%N ([m; quoted safe_path p; q] ++ (header_line h <$> names h) ++ [[]; join 59%N (names h); default [] (h !! lit "x-amz-content-sha256"%string)]).
(** 209-215 *)
Definition string_to_sign (ymd ymdhms rg can : text) : text :=
  lit "AWS4-HMAC-SHA256"%string ++ 10%N :: ymdhms ++ 10%N :: (ymd ++ 47%N :: rg ++ lit "/s3/aws4_request"%string) ++ 10%N :: sha256hex can.
(** 240-246 *)
Definition derive (secret ymd rg : text) : text := hmac (hmac (hmac (hmac (lit "AWS4"%string ++ secret) ymd) rg) (lit "s3"%string)) (lit "aws4_request"%string).
(** The header Authorization: the fields *)
Record auth := Auth { a_login : text; a_date : text; a_region : text; a_signed : text; a_sig : text }.
(** What is sent *)
Record wire := Wire { w_method : text; w_target : text; w_headers : gmap text text; w_auth : auth }.
(** The attribute signing_key and 218-223 *)
Definition key_for (c : config) (cached : option (text * text)) (ymd : text) : text * text :=
  match cached with Some (k, d) => if decide (d = ymd) then (k, d) else (derive (password c) ymd (region c), ymd) | None => (derive (password c) ymd (region c), ymd) end.
Definition v4_send (c : config) (cached : option (text * text)) (ymd ymdhms : text) (len : nat) (expect : bool) (r : request) : wire :=
  let h := v4_headers c ymdhms (<[lit "host"%string := hostname c]> (headers r)) in
  let can := canonical (method r) (full_path c r) (canonical_query r) h in
  let sig := hmachex (key_for c cached ymd).1 (string_to_sign ymd ymdhms (region c) can) in
  Wire (method r) (target c r) (send_headers c len expect h) (Auth (login c) ymd (region c) (join 59%N (names h)) sig).

(** The life of a backend: requests, and the change of the endpoint (s3.py 135-140, b2ng.py 164-172) *)
Inductive event := Sign (ymd : text) | Retarget (host : text) (prt : nat) (rg : option text).
Definition event_step (s : config * option (text * text)) (e : event) : config * option (text * text) :=
  let '(c, cached) := s in
  match e with
  | Sign ymd => (c, Some (key_for c cached ymd))
  | Retarget host prt rg =>
    match rg with
    | Some rg => if decide (rg = region c) then (Config host prt (ssl c) (bucket c) (login c) (password c) (region c), cached)
                 else (Config host prt (ssl c) (bucket c) (login c) (password c) rg, None)
    | None => (Config host prt (ssl c) (bucket c) (login c) (password c) (region c), cached)
    end
  end.

(** * Version 2: 611-645. re.split(r'\s*\n\s*', …) leaves values without line breaks as they are. *)
Definition amz (n : text) : bool := starts_with (lit "x-amz-"%string) n.
Definition opt_header (h : gmap text text) (n : text) : text := default [] (h !! n).
Definition v2_string (c : config) (m p : text) (sub : option text) (h : gmap text text) : text :=
  m ++ 10%N :: opt_header h (lit "content-md5"%string) ++ 10%N :: opt_header h (lit "content-type"%string) ++ 10%N :: opt_header h (lit "date"%string) ++ 10%N ::
  flat_map (fun n => n ++ 58%N :: strip (opt_header h n) ++ [10%N]) (filter (fun n => amz n = true) (names h)) ++
  quoted safe_path (if starts_with (bucket c) (hostname c) then 47%N :: bucket c ++ p else p) ++
  match sub with Some s => 63%N :: s | None => [] end.
Definition v2_send (c : config) (date : text) (len : nat) (expect : bool) (r : request) : wire :=
  let h := <[lit "date"%string := date]> (<[lit "host"%string := hostname c]> (headers r)) in
  Wire (method r) (target c r) (send_headers c len expect h) (Auth (login c) [] [] [] (hmacsha1 (password c) (v2_string c (method r) (full_path c r) (subres r) h))).
End digests.
