(** Model of the firewall socket protocol: /repo/letmein-fwproto/src/lib.rs *)

From Coq Require Import String NArith List Bool.
From Verif Require Import M_Base M_IpAddr.
Import ListNotations.
Local Open Scope N_scope.
Local Open Scope res_scope.

(** lib.rs 36-44: [FirewallOperation]. *)
Inductive fw_operation := FwNack | FwAck | FwOpen.

(** lib.rs 62-66 with the discriminants of lib.rs 35-44. *)
Definition fwop_to_u16 (o : fw_operation) : N :=
  match o with FwNack => 0 | FwAck => 1 | FwOpen => 2 end.

(** lib.rs 46-60: [FirewallOperation::try_from(u16)]. *)
Definition fwop_of_u16 (v : N) : res fw_operation :=
  if v =? fwop_to_u16 FwOpen then Ok FwOpen
  else if v =? fwop_to_u16 FwAck then Ok FwAck
  else if v =? fwop_to_u16 FwNack then Ok FwNack
  else Err "Invalid FirewallMessage/Operation value".

(** lib.rs 71-79: [PortType]. *)
Inductive port_type := PtTcp | PtUdp | PtTcpUdp.

(** lib.rs 97-101 with the discriminants of lib.rs 70-79. *)
Definition pt_to_u16 (t : port_type) : N :=
  match t with PtTcp => 0 | PtUdp => 1 | PtTcpUdp => 2 end.

(** lib.rs 81-95: [PortType::try_from(u16)]. *)
Definition pt_of_u16 (v : N) : res port_type :=
  if v =? pt_to_u16 PtTcp then Ok PtTcp
  else if v =? pt_to_u16 PtUdp then Ok PtUdp
  else if v =? pt_to_u16 PtTcpUdp then Ok PtTcpUdp
  else Err "Invalid FirewallMessage/PortType value".

(** lib.rs 106-112: [AddrType]. *)
Inductive addr_type := AtIpv6 | AtIpv4.

(** lib.rs 128-132 with the discriminants of lib.rs 105-112. *)
Definition at_to_u16 (t : addr_type) : N :=
  match t with AtIpv6 => 0 | AtIpv4 => 1 end.

(** lib.rs 114-126: [AddrType::try_from(u16)]. *)
Definition at_of_u16 (v : N) : res addr_type :=
  if v =? at_to_u16 AtIpv6 then Ok AtIpv6
  else if v =? at_to_u16 AtIpv4 then Ok AtIpv4
  else Err "Invalid FirewallMessage/AddrType value".

(** lib.rs 135-153: sizes and offsets. *)
Definition ADDR_SIZE : nat := 16.
Definition FWMSG_SIZE : nat := 2 + 2 + 2 + 2 + ADDR_SIZE.
Definition FWMSG_OFFS_OPERATION : nat := 0.
Definition FWMSG_OFFS_PORT_TYPE : nat := 2.
Definition FWMSG_OFFS_PORT : nat := 4.
Definition FWMSG_OFFS_ADDR_TYPE : nat := 6.
Definition FWMSG_OFFS_ADDR : nat := 8.

(** lib.rs 157-163: [FirewallMessage]. *)
Record fw_message := FwMsg {
  f_op : fw_operation;
  f_port_type : port_type;
  f_port : N;
  f_addr_type : addr_type;
  f_addr : list byte
}.

(** lib.rs 166-177: [addr_to_octets]. *)
Definition addr_to_octets (a : ip) : addr_type * list byte :=
  match a with
  | V4 o => (AtIpv4, [0;0;0;0;0;0;0;0;0;0;0;0] ++ o)
  | V6 o => (AtIpv6, o)
  end.

(** lib.rs 180-185: [octets_to_addr].  The array has 16 elements by type. *)
Definition octets_to_addr (t : addr_type) (o : list byte) : ip :=
  match t with
  | AtIpv4 => V4 [nth 12 o 0; nth 13 o 0; nth 14 o 0; nth 15 o 0]
  | AtIpv6 => V6 o
  end.

(** lib.rs 189-198: [FirewallMessage::new_open]. *)
Definition fw_new_open (a : ip) (t : port_type) (port : N) : fw_message :=
  let (at_, o) := addr_to_octets a in
  FwMsg FwOpen t port at_ o.

(** lib.rs 201-206: [FirewallMessage::new_ack] (the remaining fields are the
    [Default] values of lib.rs 69-74, 104-109). *)
Definition fw_new_ack : fw_message := FwMsg FwAck PtTcp 0 AtIpv6 (repeat 0 ADDR_SIZE).

(** lib.rs 209-214: [FirewallMessage::new_nack]. *)
Definition fw_new_nack : fw_message := FwMsg FwNack PtTcp 0 AtIpv6 (repeat 0 ADDR_SIZE).

(** lib.rs 222-227: [FirewallMessage::port]. *)
Definition fw_port (m : fw_message) : option (port_type * N) :=
  match f_op m with
  | FwOpen => Some (f_port_type m, f_port m)
  | FwAck | FwNack => None
  end.

(** lib.rs 230-235: [FirewallMessage::addr]. *)
Definition fw_addr (m : fw_message) : option ip :=
  match f_op m with
  | FwOpen => Some (octets_to_addr (f_addr_type m) (f_addr m))
  | FwAck | FwNack => None
  end.

(** lib.rs 238-255: [FirewallMessage::msg_serialize]. *)
Definition fw_serialize (m : fw_message) : res (list byte) :=
  let buf := repeat 0 FWMSG_SIZE in
  do buf <- put buf FWMSG_OFFS_OPERATION (be16 (fwop_to_u16 (f_op m)));
  do buf <- put buf FWMSG_OFFS_PORT_TYPE (be16 (pt_to_u16 (f_port_type m)));
  do buf <- put buf FWMSG_OFFS_PORT (be16 (f_port m));
  do buf <- put buf FWMSG_OFFS_ADDR_TYPE (be16 (at_to_u16 (f_addr_type m)));
  do buf <- put buf FWMSG_OFFS_ADDR (f_addr m);
  Ok buf.

(** lib.rs 266-269: [deserialize_u16(&buf[off..])]. *)
Definition deserialize_u16 (buf : list byte) (off : nat) : res N :=
  do s <- slice buf off 2;
  Ok (of_be s).

(** lib.rs 258-284: [FirewallMessage::try_msg_deserialize]. *)
Definition fw_deserialize (buf : list byte) : res fw_message :=
  if negb (Nat.eqb (length buf) FWMSG_SIZE) then
    Err "Deserialize: Raw message size mismatch."
  else
    do operation <- deserialize_u16 buf FWMSG_OFFS_OPERATION;
    do port_type <- deserialize_u16 buf FWMSG_OFFS_PORT_TYPE;
    do port <- deserialize_u16 buf FWMSG_OFFS_PORT;
    do addr_type <- deserialize_u16 buf FWMSG_OFFS_ADDR_TYPE;
    do addr <- slice buf FWMSG_OFFS_ADDR ADDR_SIZE;
    do op <- fwop_of_u16 operation;
    do pt <- pt_of_u16 port_type;
    do at_ <- at_of_u16 addr_type;
    Ok (FwMsg op pt port at_ addr).
