(** To whom the back-ends talk, and how: src/s3ql/backends/common.py 545-582 (get_proxy); src/s3ql/http.py 237-246, 272-309, 343-378, 481-493
    (HTTPConnection: where it connects, when it uses TLS, how it goes through a proxy); s3c.py 108-123, 162-206, 405-437; s3.py 92-164; b2ng.py 60-168;
    gs.py 231-313, 590-612; swift.py 226-262, 318-405, 565-590, 847-880; swiftks.py 56-244; rackspace.py 21-45.

    A session is: the back-end is created and then sends requests to the storage. What the servers answer is an argument. Names are strings, [Some ""] never
    stands for an absent value: an empty header, option or member that the code treats like a missing one is [None].
    Left out: the syntax of storage URLs (the parts are arguments); urlsplit (its result is an argument); JSON (members that are absent raise KeyError, not modelled);
    retries and repeated logins (SwiftTokenModel); contents of requests other than the credentials and the check sum; certificates (TLS to a name is an attribute of
    the packet); application default credentials of Google (a library does the log in); the pool (PoolModel). *)
From Coq Require Export String Ascii.
From stdpp Require Export prelude strings.
Open Scope string_scope.
Open Scope list_scope.

(** options of the back-end; [no_ssl]: s3c.py 78, swift.py 86 *)
Record options := Options { no_ssl : bool; no_feature_detection : bool; domain : option string; project_domain : option string; domain_is_name : bool;
  project_domain_is_name : bool; tenant_is_name : bool; identity_url : option string }.
(** the environment variables http_proxy and https_proxy *)
Record environ := Environ { http_proxy : option string; https_proxy : option string }.

(** What one request tells *)
Inductive login :=
  | V1 (path : string)                                                              (* X-Auth-User, X-Auth-Key *)
  | V2 (user : string) (tenant : option string)                                     (* POST /v2.0/tokens *)
  | V3 (path : string) (user : string) (dom : bool * string) (tenant : bool * string) (pdom : bool * string)   (* true: by name, false: by id *)
  | Basic                                                                           (* b2_authorize_account *)
  | Refresh.                                                                        (* gs.py: the refresh token *)
Inductive auth := Token (t : string) | Sig (region : string) | Sig2 | Bearer.
Inductive request := Read | Upload.
Inductive content :=
  | Login (l : login)                                       (* the user's password *)
  | Info                                                    (* GET /info, no credentials *)
  | Connect (host : string) (port : N)                      (* CONNECT host:port *)
  | Data (a : auth) (r : request) (md5 : bool).             (* [md5]: the check sum is sent along and what the server got is compared with it *)
(** One message: the TCP connection goes to [to]; [tls = Some h]: encrypted, readable only for one who has a certificate for h; [target]: whom it is for, if a
    proxy passes it on (through the tunnel, or as the absolute form of an unencrypted request says) *)
Record packet := Packet { to : string * N; tls : option string; target : option (string * N); what : content }.
Inductive exn := QuietError | DanglingStorageURLError (regions : option (list string)) | AuthenticationError | AuthorizationError | HTTPError
  | RuntimeError | AssertionError | ValueError | ConnectionClosed.

(** HTTPConnection, http.py 237-246 *)
Record conn := Conn { c_host : string; c_port : N; c_tls : bool; c_proxy : option (string * N) }.
Definition HTTPConnection (h : string) (port : option N) (ssl : bool) (proxy : option (string * N)) : conn :=
  Conn h (match port with Some p => p | None => if ssl then 443%N else 80%N end) ssl proxy.
(** connect 272-309, _tunnel 343-378 *)
Definition connect (c : conn) : list packet :=
  match c_proxy c with
  | Some p => if c_tls c then [Packet p None None (Connect (c_host c) (c_port c))] else []
  | None => []
  end.
(** send_request 481-493 *)
Definition send (c : conn) (x : content) : packet :=
  Packet (default (c_host c, c_port c) (c_proxy c)) (if c_tls c then Some (c_host c) else None)
    (match c_proxy c with Some _ => Some (c_host c, c_port c) | None => None end) x.
(** A connection that is used for the requests [l] *)
Definition talk (c : conn) (l : list content) : list packet := match l with [] => [] | _ => connect c ++ map (send c) l end.

(** Regular expressions *)
Definition in_range (a b c : ascii) : bool := (N_of_ascii a <=? N_of_ascii c)%N && (N_of_ascii c <=? N_of_ascii b)%N.
Definition is_digit (c : ascii) : bool := in_range "0" "9" c.
Definition is_lower (c : ascii) : bool := in_range "a" "z" c.
Definition is_upper (c : ascii) : bool := in_range "A" "Z" c.
Definition is_host_char (c : ascii) : bool := is_lower c || is_upper c || is_digit c || bool_decide (c = "."%char) || bool_decide (c = "-"%char).
Definition is_region_char (c : ascii) : bool := is_lower c || is_digit c || bool_decide (c = "-"%char).
(** The longest prefix of characters in a class, and the rest *)
Fixpoint span (p : ascii -> bool) (s : string) : string * string :=
  match s with
  | "" => ("", "")
  | String c s' => if p c then let '(a, b) := span p s' in (String c a, b) else ("", s)
  end.
Fixpoint strip (pre s : string) : option string :=
  match pre, s with
  | "", _ => Some s
  | String a pre', String b s' => if ascii_dec a b then strip pre' s' else None
  | _, _ => None
  end.
(** int() of digits *)
Fixpoint number_from (acc : N) (s : string) : N :=
  match s with "" => acc | String c s' => number_from (acc * 10 + (N_of_ascii c - 48))%N s' end.
Definition newline : string := String (ascii_of_nat 10) "".
(** /?$, where $ also matches before a line feed at the end *)
Definition at_end (s : string) : bool :=
  bool_decide (s = "") || bool_decide (s = "/") || bool_decide (s = newline) || bool_decide (s = ("/" ++ newline)%string).
(** common.py 560: ^(https?://)?([a-zA-Z0-9.-]+)(:[0-9]+)?/?$ and 573-578. A text that matches at all does so in one way: the host cannot contain ":" or "/" *)
Definition parse_proxy (s : string) : option (string * N) :=
  let r := match strip "https://" s with
           | Some r => r
           | None => match strip "http://" s with Some r => r | None => s end
           end in
  let '(h, r1) := span is_host_char r in
  if bool_decide (h = "") then None
  else match strip ":" r1 with
       | Some r2 => let '(d, r3) := span is_digit r2 in
                    if bool_decide (d = "") then None else if at_end r3 then Some (h, number_from 0 d) else None
       | None => if at_end r1 then Some (h, 80%N) else None
       end.
(** get_proxy 545-582; inl: QuietError *)
Definition get_proxy (env : environ) (ssl : bool) : exn + option (string * N) :=
  match (if ssl then https_proxy env else http_proxy env) with
  | None => inr None
  | Some s => match parse_proxy s with Some p => inr (Some p) | None => inl QuietError end
  end.

(** The result of a session *)
Definition session : Type := list packet * option exn.
Definition fail (l : list packet) (e : exn) : session := (l, Some e).
(** Requests to the storage: uploads carry the check sum if [md5] *)
Definition contents (a : auth) (md5 : bool) (reqs : list request) : list content :=
  map (fun r => Data a r (match r with Upload => md5 | Read => false end)) reqs.

(** s3c.py 108-123, 162-206 (also s3c4); 411-437: md5 unless there is a TLS context *)
Definition s3c_session (o : options) (env : environ) (host : string) (port : option N) (reqs : list request) : session :=
  let ssl := negb (no_ssl o) in
  match get_proxy env ssl with
  | inl e => fail [] e
  | inr proxy =>
      let p := match port with Some p => p | None => if ssl then 443%N else 80%N end in
      (talk (HTTPConnection host (Some p) ssl proxy) (contents Sig2 (negb ssl) reqs), None)
  end.

(** urlsplit: scheme, hostname, port *)
Record url := Url { scheme : string; hostname : option string; port_of : option N }.
(** s3.py 92-164: the answer to HEAD / *)
Record head := Head { status : N; location : option url; bucket_region : option string }.
Definition s3_host (region : string) : string :=
  match strip "cn-" region with Some _ => ("s3." ++ region ++ ".amazonaws.com.cn")%string | None => ("s3." ++ region ++ ".amazonaws.com")%string end.
Definition is_3xx (n : N) : bool := (300 <=? n)%N && (n <=? 399)%N.
Definition is_2xx (n : N) : bool := (200 <=? n)%N && (n <=? 299)%N.
Definition s3_session (o : options) (env : environ) (region : string) (a : head) (reqs : list request) : session :=
  let ssl := negb (no_ssl o) in
  match get_proxy env ssl with
  | inl e => fail [] e
  | inr proxy =>
      let host := s3_host region in
      let port := if ssl then 443%N else 80%N in
      let probe := talk (HTTPConnection host (Some port) ssl proxy) [Data (Sig region) Read false] in
      if negb (is_3xx (status a)) then
        if is_2xx (status a) then (probe ++ talk (HTTPConnection host (Some port) ssl proxy) (contents (Sig region) (negb ssl) reqs), None)
        else fail probe HTTPError
      else
        match location a with
        | None => fail probe QuietError
        | Some u =>
            match hostname u with
            | None => fail probe RuntimeError
            | Some h =>
                let port' := match port_of u with Some p => p | None => port end in
                let region' := match bucket_region a with Some r => r | None => region end in
                (probe ++ talk (HTTPConnection h (Some port') ssl proxy) (contents (Sig region') (negb ssl) reqs), None)
            end
        end
  end.

(** b2ng.py 105-168: the answer to b2_authorize_account; [nested]: apiInfo.storageApi.s3ApiUrl, [top]: s3ApiUrl *)
Inductive body := BadJson | Json (nested top : option url).
Definition default_region : string := "us-east-005".
(** 157: s3\.([a-z0-9-]+)\.backblazeb2\.com, fullmatch *)
Definition b2_region (host : string) : option string :=
  match strip "s3." host with
  | Some r => let '(g, r') := span is_region_char r in
              if bool_decide (g = "") then None else if bool_decide (r' = ".backblazeb2.com") then Some g else None
  | None => None
  end.
Definition b2_session (o : options) (env : environ) (st : N) (b : body) (reqs : list request) : session :=
  let ssl := negb (no_ssl o) in
  match get_proxy env ssl with
  | inl e => fail [] e
  | inr proxy =>
      let port := if ssl then 443%N else 80%N in
      let auth := talk (HTTPConnection "api.backblazeb2.com" (Some 443%N) ssl None) [Login Basic] in    (* 120 *)
      if bool_decide (st = 401%N) then fail auth AuthenticationError
      else if bool_decide (st = 403%N) then fail auth AuthorizationError
      else if negb (is_2xx st) then fail auth HTTPError
      else match b with
           | BadJson => fail auth RuntimeError
           | Json nested top =>
               match (match nested with Some u => Some u | None => top end) with
               | None => fail auth RuntimeError
               | Some u =>
                   let host := default "" (hostname u) in
                   match b2_region host with
                   | None => fail auth RuntimeError
                   | Some region =>
                       let '(host', region') := if bool_decide (region = default_region) then (("s3." ++ default_region ++ ".backblazeb2.com")%string, default_region)
                                                else (host, region) in
                       (auth ++ talk (HTTPConnection host' (Some port) ssl proxy) (contents (Sig region') (negb ssl) reqs), None)
                   end
               end
           end
  end.

(** gs.py 231-313, 590-612 with a refresh token; [granted]: the answer has an access token *)
Definition gs_session (env : environ) (granted : bool) (reqs : list request) : session :=
  match get_proxy env true with
  | inl e => fail [] e
  | inr proxy =>
      let auth := talk (HTTPConnection "accounts.google.com" (Some 443%N) true proxy) [Login Refresh] in
      if granted then (auth ++ talk (HTTPConnection "www.googleapis.com" (Some 443%N) true proxy) (contents Bearer false reqs), None)
      else fail auth AuthenticationError
  end.

(** swift.py 318-345: what _authenticate finds *)
Record auth_result := AuthResult { storage_host : string; storage_port : option N; storage_tls : bool; token : string }.
(** swift.py 387-403, swiftks.py 217-232 *)
Definition from_url (ssl : bool) (u : url) (tok : string) : exn + auth_result :=
  let ssl' := if bool_decide (scheme u = "https") then true else if bool_decide (scheme u = "http") then false else ssl in
  match hostname u with
  | None => inl AssertionError
  | Some h => inr (AuthResult h (port_of u) ssl' tok)
  end.
(** swift.py 249-258, swiftks.py 69-75: the TLS context is there whatever no-ssl says (230-232) *)
Definition swift_port (port : option N) : N := match port with Some p => p | None => 443%N end.
(** Answers to the requests for a token, in order; none left: the connection breaks *)
Record areply := AReply { a_status : N; a_token : string; a_url : url }.
(** swift.py 369-405, the part on the connection *)
Fixpoint try_paths (ssl : bool) (paths : list string) (rs : list areply) : list content * (exn + auth_result) :=
  match paths with
  | [] => ([], inl RuntimeError)
  | path :: paths' =>
      let l := Login (V1 path) in
      match rs with
      | [] => ([l], inl ConnectionClosed)
      | r :: rs' =>
          if bool_decide (a_status r = 404%N) || bool_decide (a_status r = 412%N) then let '(ls, x) := try_paths ssl paths' rs' in (l :: ls, x)
          else if bool_decide (a_status r = 401%N) then ([l], inl AuthorizationError)
          else if negb (is_2xx (a_status r)) then ([l], inl HTTPError)
          else ([l], from_url ssl (a_url r) (a_token r))
      end
  end.
(** _borrow_conn 330-344, _detect_features 847-880 ([features]: the answer is acceptable), 573: no check sum, as there is always a TLS context *)
Definition swift_requests (o : options) (proxy : option (string * N)) (a : auth_result) (features : bool) (reqs : list request) : session :=
  let dport := match storage_port a with
               | Some p => if bool_decide (p = 0%N) then (if storage_tls a then 443%N else 80%N) else p
               | None => if storage_tls a then 443%N else 80%N
               end in
  let info := if no_feature_detection o then [] else talk (HTTPConnection (storage_host a) (Some dport) (storage_tls a) proxy) [Info] in
  if no_feature_detection o || features then
    (info ++ talk (HTTPConnection (storage_host a) (storage_port a) (storage_tls a) proxy) (contents (Token (token a)) false reqs), None)
  else fail info HTTPError.
Definition swift_session (o : options) (env : environ) (host : string) (port : option N) (rs : list areply) (features : bool) (reqs : list request) : session :=
  match get_proxy env true with    (* 238 *)
  | inl e => fail [] e
  | inr proxy =>
      let ssl := negb (no_ssl o) in
      let '(ls, x) := try_paths ssl ["/v1.0"; "/auth/v1.0"] rs in
      let auth := talk (HTTPConnection host (Some (swift_port port)) ssl proxy) ls in
      match x with
      | inl e => fail auth e
      | inr a => let '(l, e) := swift_requests o proxy a features reqs in (auth ++ l, e)
      end
  end.

(** The service catalog, swiftks.py 196-232 *)
Inductive access := PublicURL (u : url) | Interface (kind : string) (u : url).
Record endpoint := Endpoint { e_region : string; e_access : access }.
Record service := Service { s_type : string; s_endpoints : list endpoint }.
Inductive found := Found (u : url) | NotFound (avail : list string).
(** 201-232: the endpoints of a service, with the regions met so far *)
Fixpoint scan_endpoints (region : string) (l : list endpoint) (avail : list string) : found :=
  match l with
  | [] => NotFound avail
  | e :: l' =>
      if negb (bool_decide (e_region e = region)) then scan_endpoints region l' (avail ++ [e_region e])
      else match e_access e with
           | PublicURL u => Found u
           | Interface k u => if negb (bool_decide (k = "public")) then scan_endpoints region l' avail else Found u
           end
  end.
(** 196-200 *)
Fixpoint scan (region : string) (l : list service) (avail : list string) : found :=
  match l with
  | [] => NotFound avail
  | s :: l' =>
      if negb (bool_decide (s_type s = "object-store")) then scan region l' avail
      else match scan_endpoints region (s_endpoints s) avail with Found u => Found u | NotFound a => scan region l' a end
  end.
(** 105-167: [parts] is login.split(':') *)
Definition login_body (o : options) (parts : list string) : exn + login :=
  match (match parts with
         | [user] => Some (None, user)
         | [tenant; user] => Some (if bool_decide (tenant = "") then None else Some tenant, user)
         | _ => None
         end) with
  | None => inl ValueError
  | Some (tenant, user) =>
      match domain o with
      | Some d =>
          match tenant with
          | None => inl ValueError
          | Some t => inr (V3 (default "/v3/auth/tokens" (identity_url o)) user (domain_is_name o, d) (tenant_is_name o, t)
                             (project_domain_is_name o || domain_is_name o, default d (project_domain o)))
          end
      | None => inr (V2 user tenant)
      end
  end.
Record kreply := KReply { k_status : N; k_token : string; k_catalog : list service }.
Definition keystone_session (o : options) (env : environ) (host : string) (port : N) (region : string) (parts : list string) (r : kreply) (features : bool)
    (reqs : list request) : session :=
  match get_proxy env true with
  | inl e => fail [] e
  | inr proxy =>
      let ssl := negb (no_ssl o) in
      match login_body o parts with
      | inl e => fail [] e
      | inr b =>
          let auth := talk (HTTPConnection host (Some port) ssl proxy) [Login b] in
          if bool_decide (k_status r = 401%N) then fail auth AuthorizationError
          else if negb (is_2xx (k_status r)) then fail auth HTTPError
          else match scan region (k_catalog r) [] with
               | NotFound avail => fail auth (DanglingStorageURLError (if (length avail <? 10)%nat then Some avail else None))
               | Found u =>
                   match from_url ssl u (k_token r) with
                   | inl e => fail auth e
                   | inr a => let '(l, e) := swift_requests o proxy a features reqs in (auth ++ l, e)
                   end
               end
      end
  end.
(** swiftks.py 56-84 *)
Definition swiftks_session (o : options) (env : environ) (host : string) (port : option N) := keystone_session o env host (swift_port port).
(** rackspace.py 21-45 *)
Definition rackspace_session (o : options) (env : environ) := keystone_session o env "auth.api.rackspacecloud.com" 443%N.

(** A back-end with the parts of its storage URL and what the servers answer *)
Inductive setup :=
  | S3C (host : string) (port : option N)
  | S3 (region : string) (a : head)
  | B2 (st : N) (b : body)
  | GS (granted : bool)
  | Swift (host : string) (port : option N) (rs : list areply) (features : bool)
  | SwiftKS (host : string) (port : option N) (region : string) (parts : list string) (r : kreply) (features : bool)
  | Rackspace (region : string) (parts : list string) (r : kreply) (features : bool).
Definition run (o : options) (env : environ) (b : setup) (reqs : list request) : session :=
  match b with
  | S3C h p => s3c_session o env h p reqs
  | S3 r a => s3_session o env r a reqs
  | B2 st b => b2_session o env st b reqs
  | GS g => gs_session env g reqs
  | Swift h p rs f => swift_session o env h p rs f reqs
  | SwiftKS h p r parts k f => swiftks_session o env h p r parts k f reqs
  | Rackspace r parts k f => rackspace_session o env r parts k f reqs
  end.
