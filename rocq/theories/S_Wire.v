(** Specification of the wire formats, written down independently of the
    serialization code: byte offsets as documented in /repo/doc/PROTOCOL.md
    ("Message format"), all numbers in network byte order. *)

From Coq Require Import NArith List.
From Verif Require Import M_Base M_Proto M_IpAddr M_FwProto.
Import ListNotations.
Local Open Scope N_scope.

(** All elements are bytes. *)
Definition all_bytes (b : list N) : Prop := forall x, In x b -> x < 256.

(** The big-endian 32/16 bit number stored at an offset. *)
Definition u32_at (b : list N) (off : nat) : N :=
  nth off b 0 * 2 ^ 24 + nth (off + 1) b 0 * 2 ^ 16
  + nth (off + 2) b 0 * 2 ^ 8 + nth (off + 3) b 0.

Definition u16_at (b : list N) (off : nat) : N :=
  nth off b 0 * 2 ^ 8 + nth (off + 1) b 0.

(** The [len] bytes stored at an offset. *)
Definition bytes_at (b : list N) (off len : nat) : list N :=
  map (fun i => nth (off + i) b 0) (seq 0 len).

(** Operation numbers of PROTOCOL.md. *)
Definition opcode (o : operation) : N :=
  match o with
  | Knock => 0 | Challenge => 1 | Response => 2 | ComeIn => 3 | GoAway => 4
  end.

(** The table of PROTOCOL.md: MAGIC, OPERATION, USER, RESOURCE, SALT, AUTH. *)
Record wire_layout (b : list N) (o : operation) (user resource : N)
       (salt auth : list N) : Prop := {
  wl_size : length b = 56%nat;
  wl_bytes : all_bytes b;
  wl_magic : u32_at b 0 = 0x3B1BB719;
  wl_op : u32_at b 4 = opcode o;
  wl_user : u32_at b 8 = user;
  wl_resource : u32_at b 12 = resource;
  wl_salt : bytes_at b 16 8 = salt;
  wl_auth : bytes_at b 24 32 = auth
}.

(** What makes a byte string a valid frame. *)
Definition valid_frame (b : list N) : Prop :=
  length b = 56%nat /\ u32_at b 0 = 0x3B1BB719 /\ u32_at b 4 <= 4.

(** Messages that the API can produce: 32 bit ids, 8 byte salt, 32 byte auth. *)
Definition api_message (m : message) : Prop :=
  m_magic m = 0x3B1BB719 /\ m_user m < 2 ^ 32 /\ m_resource m < 2 ^ 32
  /\ length (m_salt m) = 8%nat /\ all_bytes (m_salt m)
  /\ length (m_auth m) = 32%nat /\ all_bytes (m_auth m).

(** *** Firewall control messages (comments in letmein-fwproto) *)

Definition fw_opcode (o : fw_operation) : N :=
  match o with FwNack => 0 | FwAck => 1 | FwOpen => 2 end.
Definition port_type_code (t : port_type) : N :=
  match t with PtTcp => 0 | PtUdp => 1 | PtTcpUdp => 2 end.
Definition addr_type_code (t : addr_type) : N :=
  match t with AtIpv6 => 0 | AtIpv4 => 1 end.

Definition valid_fw_frame (b : list N) : Prop :=
  length b = 24%nat /\ u16_at b 0 <= 2 /\ u16_at b 2 <= 2 /\ u16_at b 6 <= 1.

Record fw_layout (b : list N) (m : fw_message) : Prop := {
  fl_size : length b = 24%nat;
  fl_bytes : all_bytes b;
  fl_op : u16_at b 0 = fw_opcode (f_op m);
  fl_port_type : u16_at b 2 = port_type_code (f_port_type m);
  fl_port : u16_at b 4 = f_port m;
  fl_addr_type : u16_at b 6 = addr_type_code (f_addr_type m);
  fl_addr : bytes_at b 8 16 = f_addr m
}.

Definition api_fw_message (m : fw_message) : Prop :=
  f_port m < 2 ^ 16 /\ length (f_addr m) = 16%nat /\ all_bytes (f_addr m).

(** An IP address as the operating system delivers it. *)
Definition ip_address (a : ip) : Prop :=
  match a with
  | V4 o => length o = 4%nat /\ all_bytes o
  | V6 o => length o = 16%nat /\ all_bytes o
  end.

(** The text that an authentication token protects: operation, user,
    resource, salt and challenge, in this order (PROTOCOL.md, "Auth"). *)
Record protected_text (b : list N) (o : operation) (user resource : N)
       (salt challenge : list N) : Prop := {
  pt_size : length b = 52%nat;
  pt_bytes : all_bytes b;
  pt_op : u32_at b 0 = opcode o;
  pt_user : u32_at b 4 = user;
  pt_resource : u32_at b 8 = resource;
  pt_salt : bytes_at b 12 8 = salt;
  pt_challenge : bytes_at b 20 32 = challenge
}.

(** The challenge that takes part in the authentication of a knock: none,
    represented by 32 zero bytes. *)
Definition no_challenge : list N := repeat 0 32.
