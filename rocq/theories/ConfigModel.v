(** Model of the configuration: src/s3ql/authinfo.py, src/s3ql/backends/config.py, storage URLs of src/s3ql/parse_args.py, options of src/s3ql/backends/__init__.py.

    Texts are lists of code points.  Not modelled: the syntax of configuration files (a file is given as what python's ConfigParser stores: names of options in lower case,
    values as texts, sections with different names, the values of the section DEFAULT separately), prompts for missing credentials. *)
From stdpp Require Import prelude list gmap.
From Coq Require Import NArith ZArith Ascii.
From Coq Require String.
Import String.StringSyntax.
Delimit Scope string_scope with string.
From Verif Require Import Text CodecModel.
Local Open Scope N_scope.

(** A literal *)
Definition lit (s : String.string) : text := N_of_ascii <$> String.list_ascii_of_string s.
Arguments lit s%string_scope.

(** * Values of ConfigParser: BasicInterpolation of python's configparser *)
Notation env := (list (text * text)) (only parsing).
Definition assoc (k : text) (d : env) : option text := snd <$> List.find (fun x => bool_decide (x.1 = k)) d.
(** str.lower, only for ASCII *)
Definition lower (s : text) : text := (fun c => if (65 <=? c) && (c <=? 90) then c + 32 else c) <$> s.
(** The match of [^)]+\)s: the name and what follows *)
Fixpoint upto (stop : N) (s : text) : option (text * text) :=
  match s with [] => None | c :: s => if decide (c = stop) then Some ([], s) else x ← upto stop s; Some (c :: x.1, x.2) end.
Definition var_ref (s : text) : option (text * text) :=
  x ← upto 41 s;
  match x with
  | ([], _) => None
  | (name, c :: rest) => if decide (c = 115) then Some (name, rest) else None
  | _ => None
  end.
(** _interpolate_some; [depth]: how many levels are left; [fuel]: at least the length of the text.  None: an exception *)
Fixpoint interpolate (depth : nat) (vars : text -> option text) : nat -> text -> option text :=
  match depth with
  | O => fun _ _ => None
  | S depth => fix go (fuel : nat) (s : text) : option text :=
      match fuel with
      | O => None
      | S fuel =>
          match s with
          | [] => Some []
          | c :: s =>
              if decide (c = 37) then
                match s with
                | [] => None
                | d :: s => if decide (d = 37) then cons 37 <$> go fuel s
                            else if decide (d = 40) then
                              x ← var_ref s; v ← vars (lower x.1);
                              e ← if decide (37 ∈ v) then interpolate depth vars (S (length v)) v else Some v;
                              app e <$> go fuel x.2
                            else None
                end
              else cons c <$> go fuel s
          end
      end
  end.
(** A section with the defaults behind it: parser[section].get(key) and .items().  MAX_INTERPOLATION_DEPTH = 10 *)
Definition raw_get (defaults sec : env) (k : text) : option text := match assoc k sec with Some v => Some v | None => assoc k defaults end.
Definition expand (defaults sec : env) (v : text) : option text := interpolate 10 (raw_get defaults sec) (S (length v)) v.
Definition keys_of (defaults sec : env) : list text := sec.*1 ++ filter (fun k => k ∉ sec.*1) defaults.*1.

(** * Authinfo.from_file 113-155 *)
Record config := Config { defaults : env; sections : list env }.
Inductive failure := Insecure (* 127: exit code 12 *) | Exception (* from ConfigParser, not caught *) | Usage (* 152, 155: exit code 2 *).
Definition storage_url_key : text := lit "storage-url".
(** 135-137: the items of a section, added to [merged] *)
Fixpoint add_items (defaults sec : env) (ks : list text) (merged : gmap text text) : option (gmap text text) :=
  match ks with
  | [] => Some merged
  | k :: ks =>
      raw ← raw_get defaults sec k; v ← expand defaults sec raw;
      add_items defaults sec ks (if decide (k = storage_url_key) then merged else <[k := v]> merged)
  end.
(** 131-137 *)
Definition add_section (defaults : env) (url : text) (merged : option (gmap text text)) (sec : env) : option (gmap text text) :=
  merged ← merged;
  match raw_get defaults sec storage_url_key with
  | None => Some merged
  | Some raw =>
      pattern ← expand defaults sec raw;
      if decide (pattern = []) then Some merged
      else if decide (pattern `prefix_of` url) then add_items defaults sec (keys_of defaults sec) merged else Some merged
  end.
Definition merge (c : config) (url : text) : option (gmap text text) := foldl (add_section (defaults c) url) (Some ∅) (sections c).

(** CompressSpec.parse 66-81: ^([a-z0-9]+)(?:-([0-9]))?$ ; None: QuietError.  $ also matches before a newline at the end. *)
Inductive algorithm := LZMA | BZIP2 | ZLIB | NONE.
Definition algorithm_of (s : text) : option algorithm :=
  if decide (s = lit "lzma") then Some LZMA else if decide (s = lit "bzip2") then Some BZIP2 else if decide (s = lit "zlib") then Some ZLIB else if decide (s = lit "none") then Some NONE else None.
Definition is_digit (c : N) : bool := (48 <=? c) && (c <=? 57).
Definition is_word (c : N) : bool := ((97 <=? c) && (c <=? 122)) || is_digit c.
Fixpoint span (p : N -> bool) (s : text) : text * text := match s with c :: s' => if p c then let '(a, b) := span p s' in (c :: a, b) else ([], s) | [] => ([], []) end.
Definition at_end (s : text) : bool := match s with [] => true | [10] => true | _ => false end.
Definition parse_compress (s : text) : option (algorithm * Z) :=
  let '(word, rest) := span is_word s in
  a ← algorithm_of word;
  if at_end rest then Some (a, 6%Z)
  else match rest with
    | 45 :: d :: rest => if is_digit d && at_end rest then Some (a, Z.of_N (d - 48)) else None
    | _ => None
    end.

(** Authinfo 84-100: the fields.  An option can be spelled with hyphens or with underscores (populate_by_name); simplified: both spellings at once are rejected. *)
Record authinfo := Authinfo { backend_login : option text; backend_password : option text; fs_passphrase : option text; backend_options : text; cachedir : text;
  max_connections : Z; max_threads : option Z; compress : algorithm * Z }.
Definition underscores (s : text) : text := Text.replace 45 [95] s.
Definition field (m : gmap text text) (alias : text) : option (option text) :=
  match m !! alias, m !! underscores alias with
  | Some v, None => Some (Some v)
  | None, Some v => Some (Some v)
  | None, None => Some None
  | Some v, Some _ => if decide (alias = underscores alias) then Some (Some v) else None
  end.
Definition aliases : list text := lit <$> ["backend-login"; "backend-password"; "fs-passphrase"; "backend-options"; "cachedir"; "max-connections"; "max-threads"; "compress"]%string.
Definition known (k : text) : bool := bool_decide (k ∈ aliases \/ k ∈ underscores <$> aliases).
Section validate.
(** How pydantic turns a text into an integer *)
Context (parse_int : text -> option Z) (default_cachedir : text).
(** An optional field with a conversion *)
Definition conv {A} (f : text -> option A) (d : A) (v : option text) : option A := match v with None => Some d | Some v => f v end.
Definition validate (m : gmap text text) : option authinfo :=
  if forallb known (map_to_list m).*1 then
    login ← field m (lit "backend-login"); password ← field m (lit "backend-password"); passphrase ← field m (lit "fs-passphrase");
    options ← field m (lit "backend-options"); dir ← field m (lit "cachedir");
    conns ← field m (lit "max-connections"); conns ← conv parse_int 32%Z conns;
    threads ← field m (lit "max-threads"); threads ← conv (fun v => Some <$> parse_int v) None threads;
    compr ← field m (lit "compress"); compr ← conv parse_compress (LZMA, 6%Z) compr;
    Some {| backend_login := login; backend_password := password; fs_passphrase := passphrase; backend_options := default [] options; cachedir := default default_cachedir dir;
            max_connections := conns; max_threads := threads; compress := compr |}
  else None.
(** [file]: None if it does not exist; otherwise its mode and content *)
Definition from_file (file : option (N * config)) (url : text) : failure + authinfo :=
  match file with
  | Some (mode, c) =>
      if decide (N.land mode 36 <> 0) (* S_IRGRP | S_IROTH *) then inl Insecure
      else match merge c url with
        | None => inl Exception
        | Some m => match validate m with Some a => inr a | None => inl Usage end
        end
  | None => match validate ∅ with Some a => inr a | None => inl Usage end
  end.
End validate.
(** pick 168-174 *)
Definition pick {A} (cli : option A) (cfg : A) : A := default cfg cli.

(** * backends/config.py: parse_suboptions 12-29 *)
(** str.strip(): white space *)
Definition is_space (c : N) : bool :=
  ((9 <=? c) && (c <=? 13)) || ((28 <=? c) && (c <=? 32)) || (c =? 133) || (c =? 160) || (c =? 5760) || ((8192 <=? c) && (c <=? 8202)) || (c =? 8232) || (c =? 8233) || (c =? 8239) || (c =? 8287) || (c =? 12288).
Fixpoint lstrip_space (s : text) : text := match s with c :: s' => if is_space c then lstrip_space s' else s | [] => [] end.
Definition strip (s : text) : text := reverse (lstrip_space (reverse (lstrip_space s))).
(** The value of an option: a text, or None for a flag (True) *)
Definition add_option (opts : gmap text (option text)) (raw : text) : gmap text (option text) :=
  let opt := strip raw in
  if decide (opt = []) then opts
  else match upto 61 opt with
    | Some (k, v) => <[strip k := Some (strip v)]> opts
    | None => <[opt := None]> opts
    end.
Definition parse_suboptions (value : text) : gmap text (option text) := foldl add_option ∅ (Text.split 44 value).
(** backends/__init__.py 59-76: the options for the backend; None: "Unknown backend option" *)
Definition resolve_options (known_options : list text) (cli : option text) (a : authinfo) : option (gmap text (option text)) :=
  let s := pick cli (backend_options a) in
  let opts := if decide (s = []) then ∅ else parse_suboptions s in
  if forallb (fun k => bool_decide (k ∈ known_options)) (map_to_list opts).*1 then Some opts else None.

(** * parse_args.py: _canonicalize_storage_url 192-218 *)
(** The scheme and what follows "://" *)
Definition is_alnum (c : N) : bool := is_word c || ((65 <=? c) && (c <=? 90)).
Definition split_url (v : text) : option (text * text) :=
  let '(scheme, rest) := span is_alnum v in
  if decide (scheme = []) then None
  else match rest with 58 :: 47 :: 47 :: rest => Some (scheme, rest) | _ => None end.
(** .+$ *)
Definition dots_end (s : text) : bool :=
  let b := match last s with Some 10 => take (length s - 1) s | _ => s end in
  bool_decide (b <> [] /\ 10 ∉ b).
Definition schemes : list text := lit <$> ["s3"; "local"; "gs"; "s3c"; "s3c4"; "swift"; "swiftks"; "rackspace"; "b2"]%string.
(** posixpath.normpath and abspath *)
Definition norm_step (rooted : bool) (acc : list text) (* reversed *) (comp : text) : list text :=
  if decide (comp = [] \/ comp = [46]) then acc
  else if decide (comp <> [46; 46]) then comp :: acc
  else match acc with
    | [] => if rooted then acc else comp :: acc
    | c :: acc' => if decide (c = [46; 46]) then comp :: acc else acc'
    end.
Definition slashes (p : text) : nat := match p with 47 :: 47 :: 47 :: _ => 1%nat | 47 :: 47 :: _ => 2%nat | 47 :: _ => 1%nat | _ => 0%nat end.
Definition normpath (p : text) : text :=
  if decide (p = []) then [46] else
  let n := slashes p in
  let comps := reverse (foldl (norm_step (bool_decide (n <> 0%nat))) [] (Text.split 47 p)) in
  let r := replicate n 47 ++ Text.join 47 comps in
  if decide (r = []) then [46] else r.
Definition abspath (cwd p : text) : text :=
  normpath (match p with 47 :: _ => p | _ => match last cwd with Some 47 => cwd ++ p | _ => cwd ++ 47 :: p end end).
(** The two patterns for URLs without a prefix: [^/]+ and [^/]+/[^/]+ *)
Definition one_part (s : text) : bool := bool_decide (s <> [] /\ 47 ∉ s).
Definition two_parts (s : text) : bool := match upto 47 s with Some (a, b) => one_part a && one_part b | None => false end.
Definition canonicalize (cwd v : text) : option text :=
  match split_url v with
  | None => None
  | Some (scheme, rest) =>
      if negb (dots_end rest) then None
      else if decide (scheme ∉ schemes) then None
      else if decide (scheme = lit "local") then Some (lit "local://" ++ abspath cwd rest ++ [47])
      else if (bool_decide (scheme ∈ [lit "s3"; lit "gs"]) && one_part rest) || (bool_decide (scheme ∈ lit <$> ["s3c"; "s3c4"; "swift"; "swiftks"; "rackspace"]%string) && two_parts rest)
      then Some (v ++ [47])
      else Some v
  end.
(** What the backends make of a URL: the parts before the prefix (region or host, bucket) and the prefix.
    One part: gs.py 274, b2ng.py 90; two parts: s3.py 146, s3c.py 170-177, swift.py 242-249 (simplified: the port stays with the host, newlines are not excluded) *)
Definition one_location (rest : text) : option (list text * text) :=
  match upto 47 rest with
  | Some ([], _) => None
  | Some (a, prefix) => Some ([a], prefix)
  | None => if decide (rest = []) then None else Some ([rest], [])
  end.
Definition location (scheme rest : text) : option (list text * text) :=
  if decide (scheme ∈ [lit "gs"; lit "b2"]) then one_location rest
  else if decide (scheme = lit "local") then None
  else match upto 47 rest with
    | Some ([], _) => None
    | Some (a, rest) => x ← one_location rest; Some (a :: x.1, x.2)
    | None => None
    end.
