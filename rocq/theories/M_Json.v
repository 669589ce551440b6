(** The document that letmeinfwd hands to nft: /repo/letmeinfwd/src/firewall/nftables.rs
    62-156 (statements and rules), 251-258, 348-353 (commands) and 332-341
    ([nftables_apply_batch]), with the JSON objects that the crate nftables (0.6.1,
    schema and stmt) makes of them and the compact formatting of serde_json (1.0.140).
    The two crates are not part of /repo: this is from their documentation. *)

From Coq Require Import String NArith List Bool.
From Verif Require Import M_Base M_IpAddr M_ConfTypes M_Text M_Firewall.
Import ListNotations.
Local Open Scope N_scope.

(** serde's data model, as far as it is used here. *)
Inductive ser :=
| SeNull
| SeNum (n : N)
| SeStr (t : text)
| SeSeq (l : list ser)
| SeMap (l : list (text * ser)).

(** serde_json, [format_escaped_str]: the table ESCAPE and [write_char_escape]. *)
Definition esc_char (c : N) : text :=
  if c =? 34 then [92; 34]
  else if c =? 92 then [92; 92]
  else if c =? 8 then [92; 98]
  else if c =? 9 then [92; 116]
  else if c =? 10 then [92; 110]
  else if c =? 12 then [92; 102]
  else if c =? 13 then [92; 114]
  else if c <? 32 then [92; 117; 48; 48; digit_char LOWER (c / 16); digit_char LOWER (c mod 16)]
  else [c].
Definition print_str (t : text) : text := 34 :: flat_map esc_char t ++ [34].

(** serde_json, [CompactFormatter]. *)
Fixpoint print (v : ser) : text :=
  match v with
  | SeNull => lit "null"
  | SeNum n => fmt_dec n
  | SeStr t => print_str t
  | SeSeq l => 91 :: join 44 (map print l) ++ [93]
  | SeMap l => 123 :: join 44 (map (fun x => print_str (fst x) ++ 58 :: print (snd x)) l) ++ [125]
  end.

Definition field (name : string) (v : ser) : text * ser := (lit name, v).
Definition obj1 (name : string) (v : ser) : ser := SeMap [field name v].

(** nftables crate: NfFamily. *)
Definition ser_family (f : nf_family) : ser :=
  SeStr (lit (match f with INet => "inet" | FIp => "ip" | FIp6 => "ip6" end)).

(** nftables.rs 92-99 and 107-115: a [Match] of a payload field with [Operator::EQ]. *)
Definition ser_match (protocol fieldname : string) (right : ser) : ser :=
  obj1 "match" (SeMap [field "left" (obj1 "payload" (SeMap [field "protocol" (SeStr (lit protocol)); field "field" (SeStr (lit fieldname))]));
                       field "right" right;
                       field "op" (SeStr (lit "=="))]).

(** nftables.rs 62-121: the statements. *)
Definition ser_stmt (s : stmt) : ser :=
  match s with
  | MatchSaddr v6 a => ser_match (if v6 then "ip6" else "ip") "saddr" (SeStr a)
  | MatchDport (SpTcp p) => ser_match "tcp" "dport" (SeNum p)
  | MatchDport (SpUdp p) => ser_match "udp" "dport" (SeNum p)
  | Accept => obj1 "accept" SeNull
  end.

(** nftables.rs 147-155, 251-258 and 348-353; members that are [None] are left out. *)
Definition ser_cmd (c : nf_cmd) : ser :=
  match c with
  | CmdFlush n =>
      obj1 "flush" (obj1 "chain" (SeMap [field "family" (ser_family (cn_family n)); field "table" (SeStr (cn_table n));
                                         field "name" (SeStr (cn_chain n))]))
  | CmdAdd n comment e =>
      obj1 "add" (obj1 "rule" (SeMap [field "family" (ser_family (cn_family n)); field "table" (SeStr (cn_table n));
                                      field "chain" (SeStr (cn_chain n)); field "expr" (SeSeq (map ser_stmt e));
                                      field "comment" (SeStr comment)]))
  | CmdDelete n h =>
      obj1 "delete" (obj1 "rule" (SeMap [field "family" (ser_family (cn_family n)); field "table" (SeStr (cn_table n));
                                         field "chain" (SeStr (cn_chain n)); field "expr" (SeSeq []);
                                         field "handle" (SeNum h)]))
  end.

(** The encoding of a [String] in memory. *)
Definition encode_char (c : N) : list byte :=
  if c <? 128 then [c]
  else if c <? 2048 then [192 + c / 64; 128 + c mod 64]
  else if c <? 65536 then [224 + c / 4096; 128 + c / 64 mod 64; 128 + c mod 64]
  else [240 + c / 262144; 128 + c / 4096 mod 64; 128 + c / 64 mod 64; 128 + c mod 64].

(** nftables.rs 332-341: what is written to the standard input of nft. *)
Definition document (cmds : list nf_cmd) : list byte :=
  flat_map encode_char (print (obj1 "nftables" (SeSeq (map ser_cmd cmds)))).
