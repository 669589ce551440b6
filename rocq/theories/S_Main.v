(** Specification vocabulary for the main programs. *)

From Coq Require Import String NArith List Bool.
From Verif Require Import M_Base M_ConfTypes M_Text M_Client M_Firewall M_Seccomp M_Start M_Main S_Text S_Conf.
Import ListNotations.
Local Open Scope N_scope.

(** *** What the effects of a program add up to *)

(** The owner of [p] was last set to [uid] and [gid]. *)
Definition owned_by (tr : list effect) (p : path) (uid gid : N) : Prop :=
  exists a b, tr = a ++ EfChown p uid gid :: b /\ forall u g, ~ In (EfChown p u g) b.
(** The mode of [p] was last set to [mode]. *)
Definition mode_is (tr : list effect) (p : path) (mode : N) : Prop :=
  exists a b, tr = a ++ EfChmod p mode :: b /\ forall m, ~ In (EfChmod p m) b.
(** [p] contains [content], which the program wrote. *)
Definition file_is (tr : list effect) (p : path) (content : list N) : Prop :=
  exists a b, tr = a ++ EfTruncate p :: EfWrite p content :: b
    /\ ~ In (EfTruncate p) b /\ forall c, ~ In (EfWrite p c) b.
(** The firewall rules, if they were [k0] before. *)
Definition ruleset_after (k0 : kernel) (tr : list effect) (k : kernel) : Prop :=
  (k = k0 /\ forall k', ~ In (EfRuleset k') tr)
  \/ exists a b, tr = a ++ EfRuleset k :: b /\ forall k', ~ In (EfRuleset k') b.
(** The process runs under the filter [f]. *)
Definition confined_by (tr : list effect) (f : option filter) : Prop :=
  exists a b, tr = a ++ EfConfine f :: b /\ forall g, ~ In (EfConfine g) b.

(** A file mode in octal digits. *)
Definition octal (user group others : N) : N := user * 64 + group * 8 + others.
(** The owner or the mode of [p] changes. *)
Definition changes_access (p : path) (ev : effect) : Prop :=
  (exists u g, ev = EfChown p u g) \/ (exists m, ev = EfChmod p m).

(** The effect is on the file or directory [p]. *)
Definition touches (ev : effect) (p : path) : Prop :=
  match ev with
  | EfMkdir q | EfChown q _ _ | EfChmod q _ | EfUnlink q | EfBind q | EfTruncate q | EfWrite q _ => p = q
  | _ => False
  end.

(** A directory is there or can be made. *)
Definition has_directory (d : dir_os) : Prop :=
  (exists mode, di_meta d = Some mode /\ N.land mode 61440 = 16384)
  \/ (di_meta d = None /\ di_mkdir d = true).
Definition can_write (f : file_os) : Prop := fo_open f = true /\ fo_write f = true.
Definition can_chown (o : owner_os) : Prop := ow_stat o = true /\ ow_chown o = true /\ ow_chmod o = true.
(** The seccomp filter of the mode can be installed, if one is needed. *)
Definition can_confine (mode : seccomp_mode) (tg : option target) (install : bool) : Prop :=
  mode = ScOff \/ tg = None \/ install = true.

(** *** Choices of the user *)

(** The seccomp mode: the one of the command line, else the one of the file. *)
Definition chosen_mode (given : option seccomp_mode) (ls : list text) (mode : seccomp_mode) : Prop :=
  given = Some mode \/ (given = None /\ setting ls "GENERAL" "seccomp" seccomp_text ScOff mode).

(** A process under [f] may make exactly the calls [may], or is killed; in mode
    log other calls are logged instead; in mode off there is no filter. *)
Definition confinement (mode : seccomp_mode) (may : target -> string -> list N -> Prop) (tg : target)
           (f : option filter) : Prop :=
  match mode with
  | ScOff => f = None
  | ScLog => forall s argv, (judge f s argv = VAllow <-> may tg s argv) /\ (judge f s argv = VLog <-> ~ may tg s argv)
  | ScKill => forall s argv, (judge f s argv = VAllow <-> may tg s argv) /\ (judge f s argv = VKill <-> ~ may tg s argv)
  end.

(** *** The command line of the client *)

(** The word for a DNS provider or a transport. *)
Definition provider_word (p : dns_provider) : string :=
  match p with Quad9 => "quad9" | Google => "google" | Cloudflare => "cloudflare" end.
Definition crypt_word (t : dns_transport) : string :=
  match t with OverTls => "tls" | OverHttps => "https" | Unencrypted => "unencrypted" end.
(** A comma separated list has this word. *)
Definition lists (t : text) (w : string) : Prop := exists ws x, separated 44 t ws /\ In x ws /\ word_is w x.
(** A comma separated list of some of these words. *)
Definition list_of (t : text) (words : list string) : Prop :=
  forall ws x, separated 44 t ws -> In x ws -> exists w, In w words /\ word_is w x.
Definition dns_text (t : text) (s : res_srv) : Prop :=
  list_of t ["system"; "quad9"; "google"; "cloudflare"]%string
  /\ (sv_system s = true <-> lists t "system") /\ (sv_quad9 s = true <-> lists t "quad9")
  /\ (sv_google s = true <-> lists t "google") /\ (sv_cloudflare s = true <-> lists t "cloudflare").
Definition crypt_text (t : text) (c : res_crypt) : Prop :=
  list_of t ["tls"; "https"; "unencrypted"]%string
  /\ (cr_tls c = true <-> lists t "tls") /\ (cr_https c = true <-> lists t "https")
  /\ (cr_unencrypted c = true <-> lists t "unencrypted").

(** The service is named by the options --dns and --dns-crypt, or by their
    defaults. *)
Definition dns_option (o : raw_opts) : text :=
  match ro_dns o with Some t => t | None => lit "system,quad9,google,cloudflare" end.
Definition crypt_option (o : raw_opts) : text :=
  match ro_dns_crypt o with Some t => t | None => lit "tls,https,unencrypted" end.
Definition named (o : raw_opts) (s : dns_service) : Prop :=
  match s with
  | DnsSystem => lists (dns_option o) "system"
  | DnsPublic p t => lists (dns_option o) (provider_word p) /\ lists (crypt_option o) (crypt_word t)
  end.

(** An option with a value: not given, or given with a valid text. *)
Definition given_as {A : Type} (means : text -> A -> Prop) (t : option text) (x : option A) : Prop :=
  match t, x with
  | None, None => True
  | Some t, Some a => means t a
  | _, _ => False
  end.

(** What the client knows from its file [file]: if the file is not a well-formed
    file, it is ignored. *)
Definition client_setting {A : Type} (file : option (list N)) (s o : string) (means : text -> A -> Prop)
           (default x : A) : Prop :=
  (exists ls, file_lines file ls /\ well_formed ls /\ setting ls s o means default x)
  \/ ((forall ls, file_lines file ls -> ~ well_formed ls) /\ x = default).
