(** Whom the back-ends may talk to, and who can read it. Written from the documentation (rst/backends.rst 20-22, 121-123, 216-221, 354-356, 429-431) and the
    replies of the servers; uses only the types of DialModel. *)
From Verif Require Import DialModel.

(** The server a message is for: the one a tunnel is asked for, the one a proxy passes it on to, or the one at the end of the line *)
Definition addr (p : packet) : string * N :=
  match what p with
  | Connect h n => (h, n)
  | _ => match target p with Some a => a | None => to p end
  end.
(** Part of an encrypted connection: the message itself is encrypted or asks the proxy for a tunnel *)
Definition secure (p : packet) : Prop := tls p <> None \/ exists h n, what p = Connect h n.

(** Text of http_proxy and https_proxy: an optional scheme, a host, an optional port, an optional slash, perhaps a line feed *)
Definition chars (P : ascii -> Prop) (s : string) : Prop := Forall P (list_ascii_of_string s).
Definition between (a b c : ascii) : Prop := nat_of_ascii a <= nat_of_ascii c <= nat_of_ascii b.
Definition digit (c : ascii) : Prop := between "0" "9" c.
Definition host_char (c : ascii) : Prop := between "a" "z" c \/ between "A" "Z" c \/ digit c \/ c = "."%char \/ c = "-"%char.
Definition region_char (c : ascii) : Prop := between "a" "z" c \/ digit c \/ c = "-"%char.
(** The number a text of digits stands for, the last digit first *)
Fixpoint value (l : list ascii) : N := match l with [] => 0 | c :: l' => N_of_ascii c - 48 + 10 * value l' end%N.
Definition proxy_text (s h : string) (n : N) : Prop :=
  exists pre d slash nl,
    s = (pre ++ h ++ d ++ slash ++ nl)%string /\
    (pre = "" \/ pre = "http://" \/ pre = "https://") /\
    h <> "" /\ chars host_char h /\
    (d = "" /\ n = 80%N \/ exists e, d = (":" ++ e)%string /\ e <> "" /\ chars digit e /\ n = value (rev (list_ascii_of_string e))) /\
    (slash = "" \/ slash = "/") /\ (nl = "" \/ nl = newline).
(** The message goes through the proxy that the environment names for it, and directly if there is none *)
Definition via (var : option string) (p : packet) : Prop :=
  match var with
  | Some s => exists h n, proxy_text s h n /\ to p = (h, n) /\ (target p = Some (addr p) \/ exists h n, what p = Connect h n)
  | None => to p = addr p /\ target p = None /\ forall h n, what p <> Connect h n
  end.
Definition proxied (env : environ) (p : packet) : Prop :=
  (secure p -> via (https_proxy env) p) /\ (~ secure p -> via (http_proxy env) p).

(** Who gets the password *)
Definition login_host (b : setup) : option string :=
  match b with
  | S3C _ _ | S3 _ _ => None
  | B2 _ _ => Some "api.backblazeb2.com"
  | GS _ => Some "accounts.google.com"
  | Swift h _ _ _ | SwiftKS h _ _ _ _ _ => Some h
  | Rackspace _ _ _ _ => Some "auth.api.rackspacecloud.com"
  end.

(** and at which port it is asked *)
Definition login_port (b : setup) : N :=
  match b with Swift _ (Some n) _ _ | SwiftKS _ (Some n) _ _ _ _ => n | _ => 443%N end.

(** The catalog as one list *)
Definition catalog (l : list service) : list (string * endpoint) := l ≫= fun s => map (fun e => (s_type s, e)) (s_endpoints s).
Definition public (a : access) (u : url) : Prop := a = PublicURL u \/ a = Interface "public" u.
Definition usable (region : string) (x : string * endpoint) (u : url) : Prop :=
  x.1 = "object-store" /\ e_region x.2 = region /\ public (e_access x.2) u.
Definition first_usable (region : string) (l : list service) (u : url) : Prop :=
  exists l1 x l2, catalog l = l1 ++ x :: l2 /\ usable region x u /\ forall y v, y ∈ l1 -> ~ usable region y v.
Definition ok (n : N) : Prop := (200 <= n < 300)%N.

(** The servers of the storage, as named by the storage URL and the servers that were asked; with the scheme and port the storage was named with *)
Inductive storage : setup -> string -> string -> option N -> Prop :=
  | st_s3c h p : storage (S3C h p) h "" p
  | st_s3 r a : (forall t, r <> ("cn-" ++ t)%string) -> storage (S3 r a) ("s3." ++ r ++ ".amazonaws.com")%string "" None
  | st_s3_cn t a : storage (S3 ("cn-" ++ t)%string a) ("s3.cn-" ++ t ++ ".amazonaws.com.cn")%string "" None
  | st_s3_moved r a u h : (300 <= status a < 400)%N -> location a = Some u -> hostname u = Some h -> storage (S3 r a) h "" (port_of u)
  | st_b2 st b g : g <> "" -> chars region_char g -> storage (B2 st b) ("s3." ++ g ++ ".backblazeb2.com")%string "" None
  | st_gs g : storage (GS g) "www.googleapis.com" "https" None
  | st_swift h0 p0 rs f r h : r ∈ rs -> ok (a_status r) -> hostname (a_url r) = Some h -> storage (Swift h0 p0 rs f) h (scheme (a_url r)) (port_of (a_url r))
  | st_swiftks h0 p0 region parts k f u h : ok (k_status k) -> first_usable region (k_catalog k) u -> hostname u = Some h ->
      storage (SwiftKS h0 p0 region parts k f) h (scheme u) (port_of u)
  | st_rackspace region parts k f u h : ok (k_status k) -> first_usable region (k_catalog k) u -> hostname u = Some h ->
      storage (Rackspace region parts k f) h (scheme u) (port_of u).
(** The scheme decides; without one that is known, the option does *)
Definition encrypted (o : options) (sch : string) : Prop := sch = "https" \/ sch <> "http" /\ no_ssl o = false.
(** Back-ends that log in at one server and are sent to another *)
Definition sent_on (b : setup) : Prop :=
  match b with Swift _ _ _ _ | SwiftKS _ _ _ _ _ _ | Rackspace _ _ _ _ => True | _ => False end.
(** Port: the one that was named, the usual one otherwise *)
Definition port_for (named : option N) (enc : bool) : N := match named with Some n => n | None => if enc then 443%N else 80%N end.
(** What proves to host h that the user may do this: a token only for the server that was named together with it; signatures name the region *)
Inductive credentials : setup -> string -> auth -> Prop :=
  | cr_s3c h p : credentials (S3C h p) h Sig2
  | cr_s3 r a h : credentials (S3 r a) h (Sig r)
  | cr_s3_moved r a u h g : (300 <= status a < 400)%N -> location a = Some u -> hostname u = Some h -> bucket_region a = Some g -> credentials (S3 r a) h (Sig g)
  | cr_b2 st b g : credentials (B2 st b) ("s3." ++ g ++ ".backblazeb2.com")%string (Sig g)
  | cr_gs g h : credentials (GS g) h Bearer
  | cr_swift h0 p0 rs f r h : r ∈ rs -> ok (a_status r) -> hostname (a_url r) = Some h -> credentials (Swift h0 p0 rs f) h (Token (a_token r))
  | cr_swiftks h0 p0 region parts k f h : ok (k_status k) -> credentials (SwiftKS h0 p0 region parts k f) h (Token (k_token k))
  | cr_rackspace region parts k f h : ok (k_status k) -> credentials (Rackspace region parts k f) h (Token (k_token k)).

(** Regions other than the one asked for in which there is object storage, in the order of the catalog *)
Definition other_regions (region : string) (l : list (string * endpoint)) : list string :=
  filter (fun r => r <> region) (map (fun x => e_region x.2) (filter (fun x => x.1 = "object-store") l)).

(** The kind of the requests that reach the storage, in order *)
Definition requests (l : list packet) : list request := omap (fun p => match what p with Data _ r _ => Some r | _ => None end) l.
(** The servers answer as they should *)
Definition detects (o : options) (features : bool) : Prop := features = true \/ no_feature_detection o = true.
Definition refuses (r : areply) : Prop := a_status r = 404%N \/ a_status r = 412%N.
Definition good_reply (r : areply) : Prop := ok (a_status r) /\ hostname (a_url r) <> None.
Definition good_login (o : options) (parts : list string) : Prop :=
  match domain o with
  | Some _ => exists t u, parts = [t; u] /\ t <> ""
  | None => exists t u, parts = [u] \/ parts = [t; u]
  end.
Definition good_catalog (region : string) (k : kreply) : Prop := ok (k_status k) /\ exists u, first_usable region (k_catalog k) u /\ hostname u <> None.
Definition answers_ok (o : options) (b : setup) : Prop :=
  match b with
  | S3C _ _ => True
  | S3 _ a => ok (status a) \/ (300 <= status a < 400)%N /\ exists u, location a = Some u /\ hostname u <> None
  | B2 st b => ok st /\ exists u g, (exists v, b = Json (Some u) v \/ b = Json None (Some u)) /\
      hostname u = Some ("s3." ++ g ++ ".backblazeb2.com")%string /\ g <> "" /\ chars region_char g
  | GS granted => granted = true
  | Swift _ _ rs f => detects o f /\ exists r rs', good_reply r /\ (rs = r :: rs' \/ exists r0, refuses r0 /\ rs = r0 :: r :: rs')
  | SwiftKS _ _ region parts k f | Rackspace region parts k f => detects o f /\ good_login o parts /\ good_catalog region k
  end.
(** Which variable is looked at: https_proxy, or http_proxy *)
Definition proxy_var (o : options) (b : setup) : bool := match b with S3C _ _ | S3 _ _ | B2 _ _ => negb (no_ssl o) | _ => true end.
