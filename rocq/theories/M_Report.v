(** Model of what the programs say about a configuration file they reject:
    the texts of the errors in /repo/letmein-conf/src/lib.rs, parse.rs and
    parse_items.rs, and their way through [Config::load] to the caller.
    The values are those of M_Conf.v; here are the texts M_Conf.v leaves out.
    [None] stands for no error.

    An error is a list of texts, the outermost context first ([anyhow] prints
    them all, one per line).  How they are laid out on the terminal is not
    modelled. *)

From Coq Require Import String NArith List Bool.
From Verif Require Import M_Base M_ConfTypes M_Text M_Str M_Utf8 M_Conf.
Import ListNotations.
Local Open Scope N_scope.

Definition report := option (list text).
(** [Result::context]. *)
Definition context (c : text) (r : report) : report := option_map (cons c) r.
(** The first error of two steps, as with [?]. *)
Definition first (a b : report) : report := match a with Some _ => a | None => b end.

(** [Display] of [ParseIntError]; M_Str.v uses shorter words for the cases. *)
Definition int_text_of (e : string) : text :=
  if String.eqb e "invalid digit" then lit "invalid digit found in string"
  else if String.eqb e "number too large" then lit "number too large to fit in target type"
  else lit "cannot parse integer from empty string".
Definition rep_int {A : Type} (r : res A) : report :=
  match r with Err e => Some [int_text_of e] | _ => None end.

(** An error whose text M_Conf.v has in full. *)
Definition rep_text {A : Type} (r : res A) : report :=
  match r with Err e => Some [lit e] | _ => None end.

(** parse.rs 55-74: [parse_hex], 32 bytes. *)
Definition rep_hex (t : text) : report :=
  let s := trim t in
  if negb (is_ascii s) then Some [lit "Hex string contains invalid characters."]
  else if negb (Nat.eqb (length s) 64)
  then Some [lit "Hex string is too short: Expected 64, got " ++ fmt_dec (N.of_nat (length s)) ++ lit " chars"]
  else rep_int (hex_loop 32 s).

(** lib.rs 270-284: [get_keys], the loop; [keys] are the keys so far. *)
Fixpoint rep_keys (l : omap) (keys : nmap (list byte)) : report :=
  match l with
  | [] => None
  | (id_t, key_t) :: r =>
      match parse_id id_t with
      | Ok id =>
          match parse_hex 32 key_t with
          | Ok key =>
              if list_eqb key (repeat 0 32)
              then Some [lit "Invalid key " ++ fmt_id id ++ lit ": Key is all zeros (00)"]
              else if list_eqb key (repeat 255 32)
              then Some [lit "Invalid key " ++ fmt_id id ++ lit ": Key is all ones (FF)"]
              else match nlookup id keys with
                   | Some _ => Some [lit "[KEYS] Multiple definitions of key '" ++ fmt_id id ++ lit "'"]
                   | None => rep_keys r (keys ++ [(id, key)])
                   end
          | _ => context (lit "[KEYS]") (rep_hex key_t)
          end
      | e => context (lit "[KEYS]") (rep_int e)
      end
  end.

Section Texts.

(** [str::to_lowercase] where its result is printed; see [to_lowercase] in
    M_Str.v. *)
Variable lower : text -> text.

(** lib.rs 224-232, 330-342: a word that is no transport. *)
Fixpoint rep_words (says : text) (vs : list text) : report :=
  match vs with
  | [] => None
  | v :: r =>
      let s := to_lowercase v in
      if is_lit s "tcp" || is_lit s "udp" then rep_words says r else Some [says ++ lower v]
  end.

(** lib.rs 207-244: [get_port]. *)
Fixpoint rep_port_items (l : list map_item) : report :=
  match l with
  | [] => None
  | KeyValue k _ :: _ | KeyValues k _ :: _ => Some [lit "[GENERAL] port: Unknown option: " ++ k]
  | Values vs :: r =>
      first (if Nat.eqb (length vs) 1 && is_number (hd [] vs) then rep_int (parse_u16 (hd [] vs))
             else rep_words (lit "[GENERAL] port: Unknown option: ") vs)
            (rep_port_items r)
  end.
Definition rep_port (i : ini) : report :=
  match get i "GENERAL" "port" with
  | Some t =>
      match parse_map t with
      | Ok m => rep_port_items m
      | e => context (lit "[GENERAL] port") (rep_text e)
      end
  | None => None
  end.

(** lib.rs 139-154, 184-198: the word that is not valid is printed in lower case
    without the white space around. *)
Definition rep_policy (i : ini) : report :=
  match get i "GENERAL" "control-error-policy" with
  | Some t =>
      match parse_policy t with
      | Err _ => Some [lit "Config option 'control-error-policy = " ++ trim (lower t)
                       ++ lit "' is not valid. Valid values are: always, basic-auth, full-auth."]
      | _ => None
      end
  | None => None
  end.
Definition rep_seccomp (i : ini) : report :=
  match get i "GENERAL" "seccomp" with
  | Some t =>
      match parse_seccomp t with
      | Err _ => Some [lit "Config option 'seccomp = " ++ trim (lower t)
                       ++ lit "' is not valid. Valid values are: off, log, kill."]
      | _ => None
      end
  | None => None
  end.

(** lib.rs 300-345: the items of one resource; the arguments say whether a port
    and users were given before. *)
Fixpoint rep_resource_items (l : list map_item) (acc : ritems) : report :=
  match l with
  | [] => None
  | it :: r =>
      let '(port, users, tcp, udp) := acc in
      match it with
      | KeyValue k v =>
          if is_lit k "port" then
            match port with
            | Some _ => Some [lit "[RESOURCE] multiple 'port' values"]
            | None =>
                match parse_u16 v with
                | Ok p => rep_resource_items r (Some p, users, tcp, udp)
                | e => context (lit "[RESOURCES] port") (rep_int e)
                end
            end
          else if is_lit k "users" then
            match users with
            | [] => rep_resource_items r (port, [v], tcp, udp)
            | _ => Some [lit "[RESOURCE] multiple 'users' values"]
            end
          else Some [lit "[RESOURCE] unknown option: " ++ k]
      | KeyValues k vs =>
          if is_lit k "port" then Some [lit "[RESOURCE] invalid 'port' option"]
          else if is_lit k "users" then
            match users with
            | [] => rep_resource_items r (port, vs, tcp, udp)
            | _ => Some [lit "[RESOURCE] multiple 'users' values"]
            end
          else Some [lit "[RESOURCE] unknown option: " ++ k]
      | Values vs =>
          match transport_words vs tcp udp with
          | Ok tu => rep_resource_items r (port, users, fst tu, snd tu)
          | _ => rep_words (lit "[RESOURCE] unknown option: ") vs
          end
      end
  end.

(** lib.rs 293-361: one resource. *)
Definition rep_resource (id : N) (t : text) : report :=
  match parse_map t with
  | Ok m =>
      match resource_items m (None, [], false, false) with
      | Ok (port, users, _, _) =>
          match port with
          | None => Some [lit "[RESOURCE] '" ++ fmt_id id ++ lit "': No 'port' value present"]
          | Some _ =>
              match parse_users users with
              | Err _ => Some [lit "[RESOURCE] '" ++ fmt_id id ++ lit "': 'user' id is invalid"]
              | _ => None
              end
          end
      | _ => rep_resource_items m (None, [], false, false)
      end
  | e => context (lit "[RESOURCES]") (rep_text e)
  end.

(** lib.rs 363-375: the resources so far, in the order of iteration. *)
Fixpoint rep_conflict (rs : nmap resource) (id port : N) : report :=
  match rs with
  | [] => None
  | (id', x) :: r =>
      if id' =? id then Some [lit "[RESOURCE] Multiple definitions of resource ID '" ++ fmt_id id ++ lit "'"]
      else if rs_port x =? port
      then Some [lit "[RESOURCE] Multiple definitions of resource port '" ++ fmt_dec port ++ lit "'"]
      else rep_conflict r id port
  end.

(** Iteration order of the map of resources. *)
Variable res_order : nmap resource -> nmap resource.

(** lib.rs 288-387: [get_resources], the loop. *)
Fixpoint rep_resources (l : omap) (rs : nmap resource) : report :=
  match l with
  | [] => None
  | (id_t, res_t) :: r =>
      match parse_id id_t with
      | Ok id =>
          match parse_resource res_t with
          | Ok x => first (rep_conflict (res_order rs) id (rs_port x)) (rep_resources r (rs ++ [(id, x)]))
          | _ => rep_resource id res_t
          end
      | e => context (lit "[RESOURCES]") (rep_int e)
      end
  end.

(** lib.rs 403-416: [get_nft_family]. *)
Definition rep_family (i : ini) : report :=
  match get i "NFTABLES" "family", get_nft_family i with
  | Some t, Err _ => Some [lit "[NFTABLES] family=" ++ trim t ++ lit " is invalid"]
  | _, _ => None
  end.

Variable float_duration : text -> option N.
Variable order : omap -> omap.

(** lib.rs 528-568: [load_ini]; the first error of the functions called. *)
Definition rep_load_ini (v : conf_variant) (i : ini) : report :=
  first (rep_text (get_debug i))
 (first (rep_port i)
 (first (rep_text (get_control_timeout float_duration i))
 (first (rep_policy i)
 (first (rep_seccomp i)
 (first (match sget i (lit "KEYS") with Some o => rep_keys (order o) [] | None => None end)
 (first (match sget i (lit "RESOURCES") with Some o => rep_resources (order o) [] | None => None end)
 (match v with
  | VarClient =>
      rep_int (get_default_user i)
  | VarServer =>
      first (rep_family i) (rep_text (get_nft_timeout float_duration i))
  end))))))).

(** [Debug] of a path. *)
Variable show_path : text -> text.

(** lib.rs 517-525: [Config::load]: the error of the ini parser, which quotes the
    line, is dropped. *)
Definition rep_load (v : conf_variant) (path : text) (file : option (list byte)) : report :=
  match ini_from_file file with
  | Ok i => rep_load_ini v i
  | Err _ => match v with
             | VarServer => Some [lit "Failed to load configuration " ++ show_path path]
             | VarClient => None
             end
  | Panic => None
  end.

(** letmeind/src/main.rs 127-129, letmeinfwd/src/main.rs 186-188,
    letmein/src/main.rs 243-245: what the program ends with. *)
Definition rep_program (v : conf_variant) (path : text) (file : option (list byte)) : report :=
  context (lit "Configuration file") (rep_load v path file).

End Texts.
