(** What the service does with a signed request (independent of the program): the documented procedures of signature versions 2 and 4, and the two ways of addressing
    a bucket. *)
From stdpp Require Import prelude gmap sorting.
From Coq Require Import String.
From Verif Require Import Text CodecModel ConfigModel SignModel.
Local Close Scope string_scope.
Local Close Scope N_scope.
Local Open Scope nat_scope.
Local Open Scope list_scope.

(** Order by code points *)
Definition text_le (a b : text) : Prop := a `prefix_of` b \/ exists p x y a' b', a = p ++ x :: a' /\ b = p ++ y :: b' /\ (x < y)%N.
(** Parameters: by name, then by value *)
Definition pair_le (a b : text * text) : Prop := (a.1 = b.1 /\ text_le a.2 b.2) \/ (a.1 <> b.1 /\ text_le a.1 b.1).

(** URI-encoding: every byte except letters, digits, '-', '.', '_', '~', and '/' in paths *)
Definition uri_encode (slash : bool) (b : text) : text := b ≫= fun c => if decide (c ∈ (lit "ABCDEFGHIJKLMNOPQRSTUVWXYZabcdefghijklmnopqrstuvwxyz0123456789-._~"%string) \/ slash = true /\ c = 47%N) then [c] else [37; HEXDIGIT (c / 16); HEXDIGIT (c mod 16)]%N.
(** The target: the path, and the parameters ('+' is a blank) *)
Definition target_path (t : text) : text := match upto 63%N t with Some (p, _) => p | None => t end.
Definition plus_decode (w : text) : text := unquote_bytes ((fun c => if decide (c = 43%N) then 32%N else c) <$> w).
Definition param (w : text) : text * text := match upto 61%N w with Some (k, v) => (plus_decode k, plus_decode v) | None => (plus_decode w, []) end.
Definition target_params (t : text) : list (text * text) := match upto 63%N t with Some (_, q) => param <$> split 38%N q | None => [] end.

(** Version 4: [can] is the canonical request of what has arrived. The body need not be signed if this is said. *)
Definition canonical_of (w : wire) (can : text) : Prop :=
  exists params values payload,
    params ≡ₚ ((fun kv => (uri_encode false kv.1, uri_encode false kv.2)) <$> target_params (w_target w)) /\ StronglySorted pair_le params /\
    Forall2 (fun n v => w_headers w !! n = Some v) (split 59%N (a_signed (w_auth w))) values /\
    w_headers w !! lit "x-amz-content-sha256"%string = Some payload /\ payload = lit "UNSIGNED-PAYLOAD"%string /\
    can = join 10%N ([w_method w; uri_encode true (unquote_bytes (target_path (w_target w))); join 38%N ((fun kv => kv.1 ++ [61%N] ++ kv.2) <$> params)] ++
      zip_with (fun n v => n ++ [58%N] ++ strip v) (split 59%N (a_signed (w_auth w))) values ++ [[]; a_signed (w_auth w); payload]).
(** The names of the signed headers are in order, host and all x-amz- headers are among them. *)
Definition names_ok (w : wire) : Prop :=
  StronglySorted text_le (split 59%N (a_signed (w_auth w))) /\ lit "host"%string ∈ split 59%N (a_signed (w_auth w)) /\
  forall n, is_Some (w_headers w !! n) -> lit "x-amz-"%string `prefix_of` n -> n ∈ split 59%N (a_signed (w_auth w)).

Section digests.
Context (sha256hex : text -> text) (hmac hmachex hmacsha1 : text -> text -> text).
(** The service in region [rg] accepts a request of the account with this [secret]. *)
Definition v4_accepts (secret rg : text) (w : wire) : Prop :=
  names_ok w /\ a_region (w_auth w) = rg /\ exists can time,
    canonical_of w can /\ w_headers w !! lit "x-amz-date"%string = Some time /\ a_date (w_auth w) = take 8 time /\
    a_sig (w_auth w) = hmachex (hmac (hmac (hmac (hmac (lit "AWS4"%string ++ secret) (take 8 time)) rg) (lit "s3"%string)) (lit "aws4_request"%string))
      (join 10%N [lit "AWS4-HMAC-SHA256"%string; time; join 47%N [take 8 time; rg; lit "s3"%string; lit "aws4_request"%string]; sha256hex can]).
(** Version 2. [host_bucket]: the bucket if it is given by the name of the host; [resource]: bucket and key with '/', encoded as sent; subresources are the parameters
    without value. *)
Definition v2_accepts (secret : text) (host_bucket : option text) (w : wire) : Prop :=
  exists amz, (forall n, n ∈ amz <-> is_Some (w_headers w !! n) /\ lit "x-amz-"%string `prefix_of` n) /\ NoDup amz /\ StronglySorted text_le amz /\
  let get n := default [] (w_headers w !! n) in
  a_sig (w_auth w) = hmacsha1 secret
    (join 10%N ([w_method w; get (lit "content-md5"%string); get (lit "content-type"%string); get (lit "date"%string)] ++ ((fun n => n ++ [58%N] ++ strip (get n)) <$> amz) ++
      [match host_bucket with Some b => 47%N :: uri_encode true b | None => [] end ++ target_path (w_target w) ++
       match upto 63%N (w_target w) with Some (_, q) => if decide (lit "delete"%string ∈ split 38%N q) then lit "?delete"%string else [] | None => [] end])).
End digests.

(** What a request to [host] (without port) with path [p] (decoded) refers to, for a service with the name [endpoint] *)
Inductive addresses (endpoint host p : text) : text -> text -> Prop :=
  | PathStyle b k : host = endpoint -> 47%N ∉ b -> p = 47%N :: b ++ 47%N :: k -> addresses endpoint host p b k
  | HostStyle b k : host = b ++ 46%N :: endpoint -> p = 47%N :: k -> addresses endpoint host p b k.
