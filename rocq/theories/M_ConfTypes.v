(** Data types of the configuration: /repo/letmein-conf/src/lib.rs *)

From Coq Require Import String NArith List Bool.
From Verif Require Import M_Base.
Import ListNotations.
Local Open Scope N_scope.

(** A text: list of Unicode code points (Rust [String]/[&str]). *)
Notation text := (list N) (only parsing).

(** lib.rs 50-56: [ControlPort]. *)
Record control_port := ControlPort { cp_port : N; cp_tcp : bool; cp_udp : bool }.

(** lib.rs 84-94: [Resource]; it has the single variant [Port]. *)
Record resource := ResPort {
  rs_port : N;
  rs_tcp : bool;
  rs_udp : bool;
  rs_users : list N
}.

(** [Vec<UserId>::contains]. *)
Definition mem_N (x : N) (l : list N) : bool := existsb (N.eqb x) l.

(** lib.rs 97-112: [Resource::contains_user]. *)
Definition contains_user (r : resource) (id : N) : bool :=
  match rs_users r with
  | [] => true
  | _ => mem_N id (rs_users r)
  end.

(** lib.rs 117-128: [ErrorPolicy]. *)
Inductive error_policy := PolAlways | PolBasicAuth | PolFullAuth.

(** lib.rs 156-171: [Seccomp]. *)
Inductive seccomp_mode := ScOff | ScLog | ScKill.

(** lib.rs 444-451: [ConfigVariant]. *)
Inductive conf_variant := VarServer | VarClient.

(** [HashMap<u32, A>] as an association list.  The order of the list stands
    for the (arbitrary) iteration order. *)
Definition nmap (A : Type) := list (N * A).

(** [HashMap::get]. *)
Fixpoint nlookup {A : Type} (k : N) (m : nmap A) : option A :=
  match m with
  | [] => None
  | (k', v) :: r => if k =? k' then Some v else nlookup k r
  end.

(** lib.rs 455-472: [Config].  Durations are in nanoseconds. *)
Record config := Config {
  c_variant : conf_variant;
  c_path : option text;
  c_debug : bool;
  c_port : control_port;
  c_control_timeout : N;
  c_policy : error_policy;
  c_seccomp : seccomp_mode;
  c_keys : nmap (list byte);
  c_resources : nmap resource;
  c_default_user : N;
  c_nft_exe : text;
  c_nft_family : text;
  c_nft_table : text;
  c_nft_chain : text;
  c_nft_timeout : N
}.

(** lib.rs 596-598: [Config::key]. *)
Definition conf_key (c : config) (id : N) : option (list byte) := nlookup id (c_keys c).

(** lib.rs 601-603: [Config::resource]. *)
Definition conf_resource (c : config) (id : N) : option resource :=
  nlookup id (c_resources c).

(** lib.rs 606-623: [Config::resource_id_by_port]: first match in iteration
    order. *)
Fixpoint res_id_by_port (l : nmap resource) (port : N) (user : option N) : option N :=
  match l with
  | [] => None
  | (k, r) :: rest =>
      if rs_port r =? port then
        match user with
        | Some u => if contains_user r u then Some k else res_id_by_port rest port user
        | None => Some k
        end
      else res_id_by_port rest port user
  end.

Definition resource_id_by_port (c : config) (port : N) (user : option N) : option N :=
  res_id_by_port (c_resources c) port user.
