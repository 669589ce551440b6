(** Specification vocabulary for secrets: what a peer may learn about the
    configuration, and what the keys are used for. *)

From Coq Require Import NArith List.
From Verif Require Import M_Base M_ConfTypes M_Server M_Client S_Wire S_Session.
Import ListNotations.
Local Open Scope N_scope.

(** The peer of a session with these events is a stranger to the
    configuration: what it sent first is not a knock of any configured user,
    authenticated with that user's key. *)
Definition stranger (mac : list N -> list N -> list N) (conf : config)
           (tr : list sevent) : Prop :=
  forall d b rest user resource key,
  tr = EvRecv d (RxBuf b) :: rest -> In (user, key) (c_keys conf) ->
  ~ valid_knock mac key user resource b.

(** A session is over: the connection is closed. *)
Definition over (p : sprog) : Prop := exists r, p = SRet r.

(** A session is over because it panicked. *)
Definition panicked (p : sprog) : Prop := p = SRet Panic.

(** The two keys give the same token to every text (each under its own token
    function). *)
Definition same_tokens (mac1 : list N -> list N -> list N) (key1 : list N)
           (mac2 : list N -> list N -> list N) (key2 : list N) : Prop :=
  forall text, mac1 key1 text = mac2 key2 text.

(** Two configurations that may differ in the bytes of the keys, and in
    nothing that matters otherwise; the tokens are the same. *)
Record differ_in_keys (mac1 : list N -> list N -> list N) (conf1 : config)
       (mac2 : list N -> list N -> list N) (conf2 : config) : Prop := {
  dk_port : c_port conf1 = c_port conf2;
  dk_policy : c_policy conf1 = c_policy conf2;
  dk_resources : c_resources conf1 = c_resources conf2;
  dk_default_user : c_default_user conf1 = c_default_user conf2;
  dk_keys : Forall2 (fun a b => fst a = fst b /\ same_tokens mac1 (snd a) mac2 (snd b))
                    (c_keys conf1) (c_keys conf2)
}.
