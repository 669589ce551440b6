(** Model of the configuration loader:
    /repo/letmein-conf/src/ini.rs, parse.rs, parse_items.rs and lib.rs 47-568. *)

From Coq Require Import String NArith List Bool.
From Verif Require Import M_Base M_ConfTypes M_Text M_Str M_Utf8.
Import ListNotations.
Local Open Scope N_scope.
Local Open Scope res_scope.

(** *** ini.rs *)

(** [HashMap<String, String>] of a section: keys are distinct; the order of the
    list is not observable, see [order] below. *)
Definition omap := list (text * text).
Fixpoint oget (m : omap) (k : text) : option text :=
  match m with
  | [] => None
  | (k', v) :: r => if list_eqb k' k then Some v else oget r k
  end.
(** [HashMap::insert]: replaces the value of an existing key. *)
Fixpoint oset (m : omap) (k v : text) : omap :=
  match m with
  | [] => [(k, v)]
  | (k', v') :: r => if list_eqb k' k then (k', v) :: r else (k', v') :: oset r k v
  end.

(** ini.rs 45-47: [Ini], a map from section names to sections. *)
Definition ini := list (text * omap).
Fixpoint sget (m : ini) (s : text) : option omap :=
  match m with
  | [] => None
  | (s', o) :: r => if list_eqb s' s then Some o else sget r s
  end.
Fixpoint sset (m : ini) (s : text) (o : omap) : ini :=
  match m with
  | [] => [(s, o)]
  | (s', o') :: r => if list_eqb s' s then (s', o) :: r else (s', o') :: sset r s o
  end.

(** ini.rs 97-147: one line.  [in_section] is the name of the current section.
    The [unwrap] in 135 is the [Panic]. *)
Definition parse_line (sections : ini) (in_section : option text) (line0 : text)
  : res (ini * option text) :=
  let line := trim_start line0 in
  match line with
  | [] => Ok (sections, in_section)
  | c :: _ =>
      if c =? 35 then Ok (sections, in_section)
      else if c =? 91 then
        match strip_last 93 (trim_end line) with
        | None => Err "Invalid section name"
        | Some l =>
            let sname := tl l in
            match sname with
            | [] => Err "Section name is empty"
            | _ =>
                match sget sections sname with
                | Some _ => Err "Duplicate section name"
                | None => Ok (sset sections sname [], Some sname)
                end
            end
        end
      else
        match in_section with
        | None => Err "Option is not inside of a section"
        | Some section =>
            match cut_at 61 line with
            | None => Err "Option has no equal sign '='"
            | Some ([], _) => Err "Option has no name before equal sign '='"
            | Some (name, value) =>
                match sget sections section with
                | None => Panic
                | Some o => Ok (sset sections section (oset o (trim_end name) value), in_section)
                end
            end
        end
  end.

(** ini.rs 94-150: [parse_str]; the result replaces the old state. *)
Fixpoint parse_lines (sections : ini) (in_section : option text) (ls : list text) : res ini :=
  match ls with
  | [] => Ok sections
  | l :: r =>
      do x <- parse_line sections in_section l;
      parse_lines (fst x) (snd x) r
  end.
Definition parse_str (content : text) : res ini := parse_lines [] None (lines content).

(** ini.rs 58-88: [new_from_file]; [file] is what reading the file gives. *)
Definition ini_from_file (file : option (list byte)) : res ini :=
  match file with
  | None => Err "Open configuration file"
  | Some bytes =>
      match from_utf8 bytes with
      | None => Err "Configuration content file to UTF-8 conversion"
      | Some content => parse_str content
      end
  end.

(** ini.rs 153-160: [get]. *)
Definition ini_get (i : ini) (section opt : text) : option text :=
  match sget i section with Some o => oget o opt | None => None end.

(** *** parse.rs *)

(** A string matched against a literal. *)
Definition is_lit (t : text) (s : string) : bool := list_eqb t (lit s).

(** parse.rs 12-20: [parse_bool]. *)
Definition parse_bool (t : text) : res bool :=
  let s := trim (to_lowercase t) in
  if is_lit s "true" || is_lit s "1" || is_lit s "yes" || is_lit s "on" then Ok true
  else if is_lit s "false" || is_lit s "0" || is_lit s "no" || is_lit s "off" then Ok false
  else Err "Invalid boolean string".

(** parse.rs 22-29, 31-38: [parse_u16], [parse_u32]. *)
Definition parse_uint (bound : N) (t : text) : res N :=
  let s := trim t in
  match strip_prefix (lit "0x") s with
  | Some h => from_str_radix bound 16 h
  | None => from_str_radix bound 10 s
  end.
Definition parse_u16 (t : text) : res N := parse_uint U16_BOUND t.
Definition parse_u32 (t : text) : res N := parse_uint U32_BOUND t.

(** parse.rs 50-53: [parse_hexdigit]; called with strings of one ASCII
    character. *)
Definition parse_hexdigit (t : text) : res N :=
  if negb (Nat.eqb (length t) 1) then Panic else from_str_radix 256 16 t.

(** parse.rs 55-74: [parse_hex]; the loop runs over the pairs of characters.
    [<<] of a [u8] drops the high bits. *)
Fixpoint hex_loop (n : nat) (s : text) : res (list byte) :=
  match n with
  | O => Ok []
  | S n' =>
      do h <- (do x <- slice s 0 1; parse_hexdigit x);
      do l <- (do x <- slice s 1 1; parse_hexdigit x);
      do r <- hex_loop n' (skipn 2 s);
      Ok (N.lor ((h * 16) mod 256) l :: r)
  end.
Definition parse_hex (size : nat) (t : text) : res (list byte) :=
  let s := trim t in
  if negb (is_ascii s) then Err "Hex string contains invalid characters."
  else if negb (Nat.eqb (length s) (size * 2)) then Err "Hex string is too short"
  else hex_loop size s.

(** parse.rs 89-97: [is_number]. *)
Definition is_ascii_digit (c : N) : bool := (48 <=? c) && (c <=? 57).
Definition is_ascii_hexdigit (c : N) : bool :=
  is_ascii_digit c || ((65 <=? c) && (c <=? 70)) || ((97 <=? c) && (c <=? 102)).
Definition is_number (t : text) : bool :=
  let s := trim t in
  match strip_prefix (lit "0x") s with
  | Some h => forallb is_ascii_hexdigit h
  | None => forallb is_ascii_digit s
  end.

(** *** parse_items.rs *)

(** parse_items.rs 12-16: [MapItem]. *)
Inductive map_item :=
| KeyValue (k v : text)
| KeyValues (k : text) (vs : list text)
| Values (vs : list text).

(** parse_items.rs 28-53: one item. *)
Definition parse_item (item : text) : res map_item :=
  match cut_at 58 item with
  | Some ([], _) => Err "Invalid item key."
  | Some (k0, value) =>
      match trim k0 with
      | [] => Err "Invalid item key."
      | key =>
          match cut_at 44 value with
          | Some _ => Ok (KeyValues key (map trim (split_on 44 value)))
          | None => Ok (KeyValue key (trim value))
          end
      end
  | None => Ok (Values (map trim (split_on 44 item)))
  end.

(** parse_items.rs 25-56: [Map::from_str]. *)
Fixpoint parse_items (l : list text) : res (list map_item) :=
  match l with
  | [] => Ok []
  | x :: r => do i <- parse_item x; do is <- parse_items r; Ok (i :: is)
  end.
Definition parse_map (t : text) : res (list map_item) := parse_items (split_on 47 t).

(** *** lib.rs *)

(** lib.rs 139-154: [ErrorPolicy::from_str]. *)
Definition parse_policy (t : text) : res error_policy :=
  let s := trim (to_lowercase t) in
  if is_lit s "always" then Ok PolAlways
  else if is_lit s "basic-auth" then Ok PolBasicAuth
  else if is_lit s "full-auth" then Ok PolFullAuth
  else Err "Config option 'control-error-policy' is not valid.".

(** lib.rs 184-198: [Seccomp::from_str]. *)
Definition parse_seccomp (t : text) : res seccomp_mode :=
  let s := trim (to_lowercase t) in
  if is_lit s "off" then Ok ScOff
  else if is_lit s "log" then Ok ScLog
  else if is_lit s "kill" then Ok ScKill
  else Err "Config option 'seccomp' is not valid.".

Definition get (i : ini) (section opt : string) : option text := ini_get i (lit section) (lit opt).

(** lib.rs 200-205: [get_debug]. *)
Definition get_debug (i : ini) : res bool :=
  match get i "GENERAL" "debug" with Some t => parse_bool t | None => Ok false end.

(** lib.rs 224-232, 330-342: words for transports. *)
Fixpoint transport_words (vs : list text) (tcp udp : bool) : res (bool * bool) :=
  match vs with
  | [] => Ok (tcp, udp)
  | v :: r =>
      let s := to_lowercase v in
      if is_lit s "tcp" then transport_words r true udp
      else if is_lit s "udp" then transport_words r tcp true
      else Err "Unknown option"
  end.

(** letmein-proto/src/lib.rs: [PORT]. *)
Definition PORT : N := 5800.

(** lib.rs 58-66: [ControlPort::default]. *)
Definition default_port : control_port := ControlPort PORT true false.

(** lib.rs 207-244: [get_port]. *)
Fixpoint port_items (l : list map_item) (cp : control_port) : res control_port :=
  match l with
  | [] => Ok cp
  | KeyValue _ _ :: _ | KeyValues _ _ :: _ => Err "[GENERAL] port: Unknown option"
  | Values vs :: r =>
      do cp' <-
        (if Nat.eqb (length vs) 1 && is_number (hd [] vs)
         then do p <- parse_u16 (hd [] vs); Ok (ControlPort p (cp_tcp cp) (cp_udp cp))
         else do tu <- transport_words vs (cp_tcp cp) (cp_udp cp);
              Ok (ControlPort (cp_port cp) (fst tu) (snd tu)));
      port_items r cp'
  end.
Definition get_port (i : ini) : res control_port :=
  match get i "GENERAL" "port" with
  | Some t =>
      do m <- parse_map t;
      do cp <- port_items m (ControlPort PORT false false);
      Ok (if negb (cp_tcp cp) && negb (cp_udp cp) then ControlPort (cp_port cp) true (cp_udp cp) else cp)
  | None => Ok default_port
  end.

(** lib.rs 253-258, 260-265. *)
Definition get_policy (i : ini) : res error_policy :=
  match get i "GENERAL" "control-error-policy" with Some t => parse_policy t | None => Ok PolAlways end.
Definition get_seccomp (i : ini) : res seccomp_mode :=
  match get i "GENERAL" "seccomp" with Some t => parse_seccomp t | None => Ok ScOff end.

(** lib.rs 270-284: [get_keys], the body of the loop. *)
Fixpoint keys_loop (l : omap) (keys : nmap (list byte)) : res (nmap (list byte)) :=
  match l with
  | [] => Ok keys
  | (id_t, key_t) :: r =>
      do id <- parse_id id_t;
      do key <- parse_hex 32 key_t;
      if list_eqb key (repeat 0 32) then Err "Key is all zeros (00)"
      else if list_eqb key (repeat 255 32) then Err "Key is all ones (FF)"
      else match nlookup id keys with
           | Some _ => Err "[KEYS] Multiple definitions of key"
           | None => keys_loop r (keys ++ [(id, key)])
           end
  end.

(** lib.rs 300-345: the items of one resource; port, users, tcp, udp. *)
Definition ritems := (option N * list text * bool * bool)%type.
Fixpoint resource_items (l : list map_item) (acc : ritems) : res ritems :=
  match l with
  | [] => Ok acc
  | it :: r =>
      let '(port, users, tcp, udp) := acc in
      do acc' <-
        match it with
        | KeyValue k v =>
            if is_lit k "port" then
              match port with
              | Some _ => Err "[RESOURCE] multiple 'port' values"
              | None => do p <- parse_u16 v; Ok (Some p, users, tcp, udp)
              end
            else if is_lit k "users" then
              match users with
              | [] => Ok (port, [v], tcp, udp)
              | _ => Err "[RESOURCE] multiple 'users' values"
              end
            else Err "[RESOURCE] unknown option"
        | KeyValues k vs =>
            if is_lit k "port" then Err "[RESOURCE] invalid 'port' option"
            else if is_lit k "users" then
              match users with
              | [] => Ok (port, vs, tcp, udp)
              | _ => Err "[RESOURCE] multiple 'users' values"
              end
            else Err "[RESOURCE] unknown option"
        | Values vs => do tu <- transport_words vs tcp udp; Ok (port, users, fst tu, snd tu)
        end;
      resource_items r acc'
  end.

(** lib.rs 354-361: the users of a resource. *)
Fixpoint parse_users (l : list text) : res (list N) :=
  match l with
  | [] => Ok []
  | u :: r =>
      match parse_id u with
      | Ok id => do ids <- parse_users r; Ok (id :: ids)
      | Err _ => Err "'user' id is invalid"
      | Panic => Panic
      end
  end.

(** lib.rs 293-361: one resource, without the checks against other resources. *)
Definition parse_resource (t : text) : res resource :=
  do m <- parse_map t;
  do acc <- resource_items m (None, [], false, false);
  let '(port, users, tcp, udp) := acc in
  let tcp' := if negb tcp && negb udp then true else tcp in
  match port with
  | None => Err "No 'port' value present"
  | Some p => do ids <- parse_users users; Ok (ResPort p tcp' udp ids)
  end.

(** lib.rs 291-385: [get_resources], the loop.  The inner loop over the resources
    so far (363-375) returns an error if any of them has the same id or port;
    only the text of the error depends on its order. *)
Fixpoint resources_loop (l : omap) (rs : nmap resource) : res (nmap resource) :=
  match l with
  | [] => Ok rs
  | (id_t, res_t) :: r =>
      do id <- parse_id id_t;
      do x <- parse_resource res_t;
      if existsb (fun y => (fst y =? id) || (rs_port (snd y) =? rs_port x)) rs
      then Err "[RESOURCE] Multiple definitions"
      else resources_loop r (rs ++ [(id, x)])
  end.

(** lib.rs 403-416: [get_nft_family]. *)
Definition get_nft_family (i : ini) : res text :=
  match get i "NFTABLES" "family" with
  | Some t =>
      let s := trim t in
      if is_lit s "inet" || is_lit s "ip" || is_lit s "ip6" then Ok s
      else Err "[NFTABLES] family is invalid"
  | None => Ok []
  end.
(** lib.rs 396-401, 418-432: plain text options. *)
Definition get_nft_exe (i : ini) : text :=
  match get i "NFTABLES" "exe" with Some t => trim t | None => lit "nft" end.
Definition get_nft_table (i : ini) : text :=
  match get i "NFTABLES" "table" with Some t => trim t | None => [] end.
Definition get_nft_chain (i : ini) : text :=
  match get i "NFTABLES" "chain-input" with Some t => trim t | None => [] end.

(** lib.rs 389-394: [get_default_user]. *)
Definition get_default_user (i : ini) : res N :=
  match get i "CLIENT" "default-user" with Some t => parse_id t | None => Ok 0 end.

(** lib.rs 47-48; durations are in nanoseconds. *)
Definition SECOND : N := 1000000000.
Definition DEFAULT_CONTROL_TIMEOUT : N := 5 * SECOND.
Definition DEFAULT_NFT_TIMEOUT : N := 600 * SECOND.

(** lib.rs 474-481: [Config::new]. *)
Definition conf_new (v : conf_variant) : config :=
  Config v None false default_port DEFAULT_CONTROL_TIMEOUT PolAlways ScOff [] [] 0 [] [] [] []
         DEFAULT_NFT_TIMEOUT.

Section Load.

(** parse.rs 40-48 and 80-84: a duration that is not a whole number: [f64] parser
    of the standard library, range check and [Duration::from_secs_f64].
    Here an arbitrary function to nanoseconds; [f64_seconds] in M_Float.v models it. *)
Variable float_duration : text -> option N.
(** Iteration order of the hash maps of options. *)
Variable order : omap -> omap.

(** parse.rs 76-86: [parse_duration]. *)
Definition parse_duration (t : text) : res N :=
  match parse_u32 t with
  | Ok secs => Ok (secs * SECOND)
  | Panic => Panic
  | Err _ => match float_duration (trim t) with
             | Some ns => Ok ns
             | None => Err "Invalid Duration"
             end
  end.

(** lib.rs 246-251, 434-440. *)
Definition get_control_timeout (i : ini) : res N :=
  match get i "GENERAL" "control-timeout" with
  | Some t => parse_duration t
  | None => Ok DEFAULT_CONTROL_TIMEOUT
  end.
Definition get_nft_timeout (i : ini) : res N :=
  match get i "NFTABLES" "timeout" with
  | Some t => parse_duration t
  | None => Ok DEFAULT_NFT_TIMEOUT
  end.

(** lib.rs 267-286: [get_keys]; lib.rs 288-387: [get_resources]. *)
Definition get_keys (i : ini) : res (nmap (list byte)) :=
  match sget i (lit "KEYS") with
  | Some o => keys_loop (order o) []
  | None => Ok []
  end.
Definition get_resources (i : ini) : res (nmap resource) :=
  match sget i (lit "RESOURCES") with
  | Some o => resources_loop (order o) []
  | None => Ok []
  end.

(** lib.rs 528-568: [load_ini].  All values are computed before the first one is
    stored. *)
Definition load_ini (c : config) (i : ini) : res config :=
  do debug <- get_debug i;
  do port <- get_port i;
  do control_timeout <- get_control_timeout i;
  do policy <- get_policy i;
  do seccomp <- get_seccomp i;
  do keys <- get_keys i;
  do resources <- get_resources i;
  match c_variant c with
  | VarClient =>
      do user <- get_default_user i;
      Ok (Config VarClient (c_path c) debug port control_timeout policy seccomp keys resources
                 user [] [] [] [] DEFAULT_NFT_TIMEOUT)
  | VarServer =>
      do family <- get_nft_family i;
      do nft_timeout <- get_nft_timeout i;
      Ok (Config VarServer (c_path c) debug port control_timeout policy seccomp keys resources
                 0 (get_nft_exe i) family (get_nft_table i) (get_nft_chain i) nft_timeout)
  end.

Definition with_path (c : config) (p : text) : config :=
  Config (c_variant c) (Some p) (c_debug c) (c_port c) (c_control_timeout c) (c_policy c)
         (c_seccomp c) (c_keys c) (c_resources c) (c_default_user c) (c_nft_exe c)
         (c_nft_family c) (c_nft_table c) (c_nft_chain c) (c_nft_timeout c).

(** lib.rs 517-525: [Config::load]: the configuration afterwards and the
    result. *)
Definition conf_load (c : config) (path : text) (file : option (list byte)) : config * res unit :=
  match ini_from_file file with
  | Ok i =>
      match load_ini c i with
      | Ok c' => (with_path c' path, Ok tt)
      | Err e => (c, Err e)
      | Panic => (c, Panic)
      end
  | Err _ =>
      match c_variant c with
      | VarServer => (c, Err "Failed to load configuration")
      | VarClient => (with_path c path, Ok tt)
      end
  | Panic => (c, Panic)
  end.

End Load.

(** /repo/letmein/src/command/genkey.rs 15-22: [run_genkey], the printed line;
    [key] is the random key. *)
Definition fmt_byte (b : byte) : text := pad_left 2 48 (fmt_radix UPPER 16 b).
Definition genkey_line (default_user : N) (user : option N) (key : list byte) : text :=
  fmt_id (match user with Some u => u | None => default_user end)
  ++ lit " = " ++ concat (map fmt_byte key).
