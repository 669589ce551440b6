(** Specification vocabulary: JSON (RFC 8259), and what nft is asked for by a JSON
    document (libnftables-json(5)), as far as letmeinfwd needs it. *)

From Coq Require Import String NArith List Bool Permutation.
From Verif Require Import M_ConfTypes M_Text M_Firewall S_Text.
Import ListNotations.
Local Open Scope N_scope.

(** *** Values *)

(** A number is kept as it is written. *)
Inductive json :=
| JNull
| JBool (b : bool)
| JNum (t : text)
| JStr (t : text)
| JArr (l : list json)
| JObj (l : list (text * json)).

(** *** Texts (RFC 8259, sections 2-7) *)

Definition json_ws (c : N) : Prop := In c [32; 9; 10; 13].
Definition ws (t : text) : Prop := Forall json_ws t.

(** Section 6: an optional minus sign; an integer without leading zeros; an optional
    fraction; an optional exponent. *)
Definition digits (t : text) : Prop := t <> [] /\ Forall (fun c => 48 <= c < 58) t.
Inductive int_part : text -> Prop :=
| ip_zero : int_part [48]
| ip_more : forall c t, 49 <= c < 58 -> Forall (fun c => 48 <= c < 58) t -> int_part (c :: t).
Inductive frac_part : text -> Prop :=
| fp_none : frac_part []
| fp_some : forall t, digits t -> frac_part (46 :: t).
Inductive exp_part : text -> Prop :=
| ep_none : exp_part []
| ep_some : forall e s t, In e [101; 69] -> In s [[]; [43]; [45]] -> digits t -> exp_part (e :: s ++ t).
Definition number_text (t : text) : Prop :=
  exists m i f e, In m [[]; [45]] /\ int_part i /\ frac_part f /\ exp_part e /\ t = m ++ i ++ f ++ e.

(** Section 7: one character of a string and how it may be written. *)
Definition hex4 (t : text) (v : N) : Prop := length t = 4%nat /\ numeral 16 t v.
Inductive char_text : text -> N -> Prop :=
| ct_plain : forall c, scalar c -> 32 <= c -> c <> 34 -> c <> 92 -> char_text [c] c
| ct_escape : forall x c,
    In (x, c) [(34, 34); (92, 92); (47, 47); (98, 8); (102, 12); (110, 10); (114, 13); (116, 9)] ->
    char_text [92; x] c
| ct_hex : forall h v, hex4 h v -> ~ 55296 <= v < 57344 -> char_text (92 :: 117 :: h) v
| ct_pair : forall h v k w, hex4 h v -> hex4 k w -> 55296 <= v < 56320 -> 56320 <= w < 57344 ->
    char_text (92 :: 117 :: h ++ 92 :: 117 :: k) (65536 + (v - 55296) * 1024 + (w - 56320)).
Inductive chars_text : text -> text -> Prop :=
| cs_nil : chars_text [] []
| cs_cons : forall t c r s, char_text t c -> chars_text r s -> chars_text (t ++ r) (c :: s).
Definition string_text (t s : text) : Prop := exists b, chars_text b s /\ t = 34 :: b ++ [34].

(** Sections 2-5. *)
Inductive value_text : text -> json -> Prop :=
| vt_null : value_text (lit "null") JNull
| vt_true : value_text (lit "true") (JBool true)
| vt_false : value_text (lit "false") (JBool false)
| vt_num : forall t, number_text t -> value_text t (JNum t)
| vt_str : forall t s, string_text t s -> value_text t (JStr s)
| vt_arr0 : forall w, ws w -> value_text (91 :: w ++ [93]) (JArr [])
| vt_arr : forall t l, elements_text t l -> value_text (91 :: t ++ [93]) (JArr l)
| vt_obj0 : forall w, ws w -> value_text (123 :: w ++ [125]) (JObj [])
| vt_obj : forall t l, members_text t l -> value_text (123 :: t ++ [125]) (JObj l)
with json_text : text -> json -> Prop :=
| jt : forall a t v b, ws a -> value_text t v -> ws b -> json_text (a ++ t ++ b) v
with elements_text : text -> list json -> Prop :=
| et_one : forall t v, json_text t v -> elements_text t [v]
| et_more : forall t v r l, json_text t v -> elements_text r l -> elements_text (t ++ 44 :: r) (v :: l)
with members_text : text -> list (text * json) -> Prop :=
| mt_one : forall a k s b t v, ws a -> string_text k s -> ws b -> json_text t v ->
    members_text ((a ++ k ++ b) ++ 58 :: t) [(s, v)]
| mt_more : forall a k s b t v r l, ws a -> string_text k s -> ws b -> json_text t v -> members_text r l ->
    members_text ((a ++ k ++ b) ++ 58 :: t ++ 44 :: r) ((s, v) :: l).

(** *** What nft is asked for *)

(** An object with exactly these members, in any order. *)
Definition object (v : json) (l : list (string * json)) : Prop :=
  exists m, v = JObj m /\ Permutation m (map (fun x => (lit (fst x), snd x)) l).

Definition word (s : string) : json := JStr (lit s).

(** A number without sign, fraction and exponent. *)
Definition natural (v : json) (n : N) : Prop := exists t, v = JNum t /\ t <> [] /\ numeral 10 t n.

(** [<protocol> <field> == <right>] *)
Definition matches (v : json) (protocol field : string) (right : json) : Prop :=
  exists m p f, object v [("match", m)]%string
    /\ object m [("op", word "=="); ("left", p); ("right", right)]%string
    /\ object p [("payload", f)]%string
    /\ object f [("protocol", word protocol); ("field", word field)]%string.

Definition transport (p : single_port) : string := match p with SpTcp _ => "tcp" | SpUdp _ => "udp" end.
Definition port_number (p : single_port) : N := match p with SpTcp n | SpUdp n => n end.

(** The statements of a rule. *)
Inductive says : json -> stmt -> Prop :=
| sa_saddr : forall v v6 a, matches v (if v6 : bool then "ip6" else "ip") "saddr" (JStr a) -> says v (MatchSaddr v6 a)
| sa_dport : forall v p n, matches v (transport p) "dport" n -> natural n (port_number p) -> says v (MatchDport p)
| sa_accept : forall v, object v [("accept", JNull)]%string -> says v Accept.

Definition family_word (f : nf_family) : string := match f with INet => "inet" | FIp => "ip" | FIp6 => "ip6" end.

(** The commands. *)
Inductive asks : json -> nf_cmd -> Prop :=
| as_flush : forall v w c,
    object v [("flush", w)]%string ->
    (exists x, object w [("chain", x)]%string
       /\ object x [("family", word (family_word (cn_family c))); ("table", JStr (cn_table c)); ("name", JStr (cn_chain c))]%string) ->
    asks v (CmdFlush c)
| as_add : forall v w c comment e es,
    object v [("add", w)]%string ->
    (exists x, object w [("rule", x)]%string
       /\ object x [("family", word (family_word (cn_family c))); ("table", JStr (cn_table c)); ("chain", JStr (cn_chain c));
                    ("expr", JArr es); ("comment", JStr comment)]%string) ->
    Forall2 says es e ->
    asks v (CmdAdd c comment e)
| as_delete : forall v w c h n,
    object v [("delete", w)]%string ->
    (exists x, object w [("rule", x)]%string
       /\ object x [("family", word (family_word (cn_family c))); ("table", JStr (cn_table c)); ("chain", JStr (cn_chain c));
                    ("expr", JArr []); ("handle", n)]%string) ->
    natural n h ->
    asks v (CmdDelete c h).

(** A document with a list of commands. *)
Definition asks_for (v : json) (cmds : list nf_cmd) : Prop :=
  exists l, object v [("nftables", JArr l)]%string /\ Forall2 asks l cmds.

(** A program that is given these bytes and follows RFC 8259 and libnftables-json(5)
    understands these commands and nothing else. *)
Definition read_as (bytes : list N) (cmds : list nf_cmd) : Prop :=
  (exists t v, utf8 bytes t /\ json_text t v /\ asks_for v cmds)
  /\ forall t v cmds', utf8 bytes t -> json_text t v -> asks_for v cmds' -> cmds' = cmds.

(** The texts of the commands are Unicode, as every Rust string is. *)
Definition unicode_stmt (s : stmt) : Prop := match s with MatchSaddr _ a => Forall scalar a | _ => True end.
Definition unicode_chain (c : chain_name) : Prop := Forall scalar (cn_table c) /\ Forall scalar (cn_chain c).
Definition unicode_cmd (c : nf_cmd) : Prop :=
  match c with
  | CmdFlush c | CmdDelete c _ => unicode_chain c
  | CmdAdd c comment e => unicode_chain c /\ Forall scalar comment /\ Forall unicode_stmt e
  end.
