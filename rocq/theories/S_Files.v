(** Client and server as started from their configuration files. *)

From Coq Require Import String NArith List Permutation.
From Verif Require Import M_Base M_Proto M_ConfTypes M_Text M_Conf M_Server M_Client M_IpAddr S_Wire S_Session
  S_Text S_Conf S_Client.
Import ListNotations.
Local Open Scope N_scope.

(** Section [s] has an entry for identifier [id], which means [x]. *)
Definition entry {A : Type} (ls : list text) (s : string) (means : text -> A -> Prop) (id : N) (x : A) : Prop :=
  exists o v, has_option ls (lit s) o v /\ id_text o id /\ means v x.

(** A program read [file], with lines [ls], successfully; [conf] is what it got. *)
Definition started_from (fraction : text -> option N) (variant : conf_variant) (file : option (list N))
           (ls : list text) (conf : config) : Prop :=
  exists order path, (forall m, Permutation m (order m))
    /\ file_lines file ls /\ well_formed ls
    /\ conf_load fraction order (conf_new variant) path file = (conf, Ok tt).

(** The resource is not restricted to other users. *)
Definition open_to (r : resource) (user : N) : Prop := rs_users r = [] \/ In user (rs_users r).

(** What the control port is according to the file. *)
Definition control_port_is (ls : list text) (cp : control_port) : Prop :=
  setting ls "GENERAL" "port" control_port_text (ControlPort 5800 true false) cp.

(** The files of client and server agree about the knock of [user] for port
    [port]: the same key, and in the server's file a resource [rs] that has the
    number of the resource in the client's file. *)
Record files_agree (cls sls : list text) (user : N) (port : N) (rs : resource) : Prop := {
  fa_key : exists key, entry cls "KEYS" key_text user key /\ entry sls "KEYS" key_text user key;
  fa_resource : exists id crs,
    entry cls "RESOURCES" resource_text id crs /\ rs_port crs = port /\ open_to crs user
    /\ entry sls "RESOURCES" resource_text id rs /\ rs_port rs = port /\ open_to rs user;
  fa_control : forall cp, control_port_is sls cp -> cp_port cp <> port
}.

(** The host is an address of the right family, or a name that can be looked up
    with some enabled service. *)
Definition resolvable (parse_ip : list N -> option ip) (host : list N) (mode : res_mode)
           (srv : res_srv) (crypt : res_crypt) : Prop :=
  (exists a, parse_ip host = Some a /\ family_ok mode a)
  \/ (parse_ip host = None /\ exists s, enabled srv crypt s = true).

(** The user of the command: given, or the default of the client's file. *)
Definition user_of_command (cls : list text) (given : option N) (user : N) : Prop :=
  given = Some user \/ (given = None /\ setting cls "CLIENT" "default-user" id_text 0 user).

(** The events of a session in which the peer proved to know [key]: a valid
    knock, a challenge with a fresh nonce, the valid response to it. *)
Definition proved_key (mac : list N -> list N -> list N) (key : list N) (user id : N) (tr : list sevent) : Prop :=
  exists d1 kb salt nonce d2 chal d3 rb,
    tr = [EvRecv d1 (RxBuf kb); EvRand 8 (Some salt); EvRand 32 (Some nonce);
          EvSend d2 chal TxOk; EvRecv d3 (RxBuf rb)]
    /\ valid_knock mac key user id kb
    /\ is_message chal Challenge user id /\ m_auth chal = nonce /\ length nonce = 32%nat
    /\ valid_response mac key user id nonce rb.
