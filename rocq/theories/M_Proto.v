(** Model of the wire protocol crate: /repo/letmein-proto/src/lib.rs *)

From Coq Require Import String NArith List Bool.
From Verif Require Import M_Base.
Import ListNotations.
Local Open Scope N_scope.
Local Open Scope res_scope.

(** lib.rs 34: [MAGIC]. *)
Definition MAGIC : N := 0x3B1BB719.

(** lib.rs 37: [SALT_SIZE]. *)
Definition SALT_SIZE : nat := 8.

(** lib.rs 40: [AUTH_SIZE]. *)
Definition AUTH_SIZE : nat := 32.

(** lib.rs 43: [KEY_SIZE]. *)
Definition KEY_SIZE : nat := 32.

(** lib.rs 55: [ZERO_AUTH]. *)
Definition ZERO_AUTH : list byte := repeat 0 AUTH_SIZE.

(** lib.rs 115-133: [secure_random<SZ>()].  [os] is what the operating system
    generator delivered: [None] when [getrandom::fill] failed.  The generator
    always fills the whole buffer, so [os] has [sz] bytes; that is a
    precondition of the model function and not checked here. *)
Definition secure_random (sz : nat) (os : option (list byte)) : res (list byte) :=
  assert_ (Nat.leb 8 sz)
    match os with
    | None => Panic
    | Some buf =>
        assert_ (negb (list_eqb buf (repeat 0 sz)))
          (assert_ (negb (list_eqb buf (repeat 255 sz)))
             match buf with
             | [] => Panic
             | first :: _ =>
                 assert_ (negb (forallb (fun x => x =? first) buf)) (Ok buf)
             end)
    end.

(** lib.rs 138-169: [Operation]. *)
Inductive operation := Knock | Challenge | Response | ComeIn | GoAway.

(** lib.rs 191-195: [u32::from(Operation)], the enum discriminant of
    lib.rs 137-169. *)
Definition op_to_u32 (o : operation) : N :=
  match o with
  | Knock => 0
  | Challenge => 1
  | Response => 2
  | ComeIn => 3
  | GoAway => 4
  end.

(** lib.rs 171-189: [Operation::try_from(u32)]. *)
Definition op_of_u32 (v : N) : res operation :=
  if v =? op_to_u32 Knock then Ok Knock
  else if v =? op_to_u32 Challenge then Ok Challenge
  else if v =? op_to_u32 Response then Ok Response
  else if v =? op_to_u32 ComeIn then Ok ComeIn
  else if v =? op_to_u32 GoAway then Ok GoAway
  else Err "Invalid Message/Operation value".

(** [PartialEq] for [Operation] (derived, lib.rs 136). *)
Definition op_eqb (a b : operation) : bool := op_to_u32 a =? op_to_u32 b.

(** lib.rs 199: [MSG_SIZE]. *)
Definition MSG_SIZE : nat := 4 + 4 + 4 + 4 + SALT_SIZE + AUTH_SIZE.

(** lib.rs 202-217: field offsets. *)
Definition MSG_OFFS_MAGIC : nat := 0.
Definition MSG_OFFS_OPERATION : nat := 4.
Definition MSG_OFFS_USER : nat := 8.
Definition MSG_OFFS_RESOURCE : nat := 12.
Definition MSG_OFFS_SALT : nat := 16.
Definition MSG_OFFS_AUTH : nat := 24.

(** lib.rs 221-228: [Message]. *)
Record message := Msg {
  m_magic : N;
  m_op : operation;
  m_user : N;
  m_resource : N;
  m_salt : list byte;
  m_auth : list byte
}.

(** The value ranges that the Rust types of the fields of [Message] enforce
    (lib.rs 221-228: [u32], [[u8; 8]], [[u8; 32]]) together with the fact that
    [magic] is private and only ever set to [MAGIC] (lib.rs 234) or checked to
    be [MAGIC] (lib.rs 378). *)
Definition msg_ok (m : message) : bool :=
  (m_magic m =? MAGIC)
  && (m_user m <? 4294967296) && (m_resource m <? 4294967296)
  && Nat.eqb (length (m_salt m)) SALT_SIZE && bytes_ok (m_salt m)
  && Nat.eqb (length (m_auth m)) AUTH_SIZE && bytes_ok (m_auth m).

(** lib.rs 232-241: [Message::new].  [os] is the output of the OS generator
    used for the salt. *)
Definition msg_new (op : operation) (user resource : N) (os : option (list byte))
  : res message :=
  do salt <- secure_random SALT_SIZE os;
  Ok (Msg MAGIC op user resource salt ZERO_AUTH).

(** A message with another [auth] field (the assignments [self.auth = ...] in
    lib.rs 318, 326 and 333). *)
Definition set_auth (m : message) (auth : list byte) : message :=
  Msg (m_magic m) (m_op m) (m_user m) (m_resource m) (m_salt m) auth.

(** lib.rs 270-274: the byte string that is fed into the MAC. *)
Definition mac_input (m : message) (challenge : list byte) : list byte :=
  be32 (op_to_u32 (m_op m)) ++ be32 (m_user m) ++ be32 (m_resource m)
    ++ m_salt m ++ challenge.

Section Mac.

(** [mac key data]: the MAC function, HMAC-SHA3-256 in the code
    (lib.rs 268-277).  The concrete function is in M_Sha3.v. *)
Variable mac : list byte -> list byte -> list byte.

(** lib.rs 260-281: [Message::authenticate].  The [debug_assert_ne!] of line
    278 is compiled out in release builds and not modelled. *)
Definition authenticate (m : message) (key challenge : list byte) : res (list byte) :=
  assert_ (Nat.eqb (length key) KEY_SIZE)
    (assert_ (Nat.eqb (length challenge) AUTH_SIZE)
       (Ok (mac key (mac_input m challenge)))).

(** lib.rs 285-287: [Message::authenticate_no_challenge]. *)
Definition authenticate_no_challenge (m : message) (key : list byte) : res (list byte) :=
  authenticate m key ZERO_AUTH.

(** lib.rs 292-299: [Message::check_auth_ok].  The constant time comparison
    [ct_eq] is modelled by equality. *)
Definition check_auth_ok (m : message) (key : list byte) (challenge : message)
  : res bool :=
  assert_ (op_eqb (m_op challenge) Challenge)
    (assert_ (op_eqb (m_op m) Response)
       (do a <- authenticate m key (m_auth challenge);
        Ok (list_eqb (m_auth m) a))).

(** lib.rs 304-310: [Message::check_auth_ok_no_challenge]. *)
Definition check_auth_ok_no_challenge (m : message) (key : list byte) : res bool :=
  assert_ (op_eqb (m_op m) Knock)
    (do a <- authenticate_no_challenge m key;
     Ok (list_eqb (m_auth m) a)).

(** lib.rs 315-319: [Message::generate_auth].  Returns the updated message. *)
Definition generate_auth (m : message) (key : list byte) (challenge : message)
  : res message :=
  assert_ (op_eqb (m_op challenge) Challenge)
    (assert_ (op_eqb (m_op m) Response)
       (do a <- authenticate m key (m_auth challenge);
        Ok (set_auth m a))).

(** lib.rs 324-327: [Message::generate_auth_no_challenge]. *)
Definition generate_auth_no_challenge (m : message) (key : list byte) : res message :=
  assert_ (op_eqb (m_op m) Knock)
    (do a <- authenticate_no_challenge m key;
     Ok (set_auth m a)).

End Mac.

(** lib.rs 331-334: [Message::generate_challenge].  [os] is the output of the
    OS generator. *)
Definition generate_challenge (m : message) (os : option (list byte)) : res message :=
  assert_ (op_eqb (m_op m) Challenge)
    (do nonce <- secure_random AUTH_SIZE os;
     Ok (set_auth m nonce)).

(** lib.rs 337-355: [Message::msg_serialize]: writes into a zeroed buffer. *)
Definition msg_serialize (m : message) : res (list byte) :=
  let buf := repeat 0 MSG_SIZE in
  do buf <- put buf MSG_OFFS_MAGIC (be32 (m_magic m));
  do buf <- put buf MSG_OFFS_OPERATION (be32 (op_to_u32 (m_op m)));
  do buf <- put buf MSG_OFFS_USER (be32 (m_user m));
  do buf <- put buf MSG_OFFS_RESOURCE (be32 (m_resource m));
  do buf <- put buf MSG_OFFS_SALT (m_salt m);
  do buf <- put buf MSG_OFFS_AUTH (m_auth m);
  Ok buf.

(** lib.rs 366-369: [deserialize_u32(&buf[off..])]. *)
Definition deserialize_u32 (buf : list byte) (off : nat) : res N :=
  do s <- slice buf off 4;
  Ok (of_be s).

(** lib.rs 358-390: [Message::try_msg_deserialize]. *)
Definition try_msg_deserialize (buf : list byte) : res message :=
  if negb (Nat.eqb (length buf) MSG_SIZE) then
    Err "Deserialize: Raw message size mismatch."
  else
    do magic <- deserialize_u32 buf MSG_OFFS_MAGIC;
    do operation <- deserialize_u32 buf MSG_OFFS_OPERATION;
    do user <- deserialize_u32 buf MSG_OFFS_USER;
    do resource <- deserialize_u32 buf MSG_OFFS_RESOURCE;
    do salt <- slice buf MSG_OFFS_SALT SALT_SIZE;
    do auth <- slice buf MSG_OFFS_AUTH AUTH_SIZE;
    if negb (magic =? MAGIC) then
      Err "Deserialize: Invalid magic code."
    else
      do op <- op_of_u32 operation;
      Ok (Msg magic op user resource salt auth).
