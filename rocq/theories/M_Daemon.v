(** Model of the main programs of the daemons once they are initialised:
    /repo/letmeind/src/main.rs 151-217 and /repo/letmeinfwd/src/main.rs 213-304.

    Tasks of the single-threaded runtime are interleaved at their await points,
    in any order.  The accept task is a program counter: it waits in [accept],
    then in [acquire], then spawns the handler and drops the permit at the end
    of the [if let] block (letmeind 166-182, letmeinfwd 229-235). *)

From Coq Require Import String NArith List Bool.
From Verif Require Import M_Base.
Import ListNotations.
Local Open Scope N_scope.

Inductive accept_pc :=
| PcAccept                  (* srv.accept().await: letmeind 163, letmeinfwd 226 *)
| PcAcquire (c : N)         (* conn_semaphore.acquire().await: 166, 229 *)
| PcHold (c : N)            (* permit held: 167-179, 230-234 *)
| PcDrop                    (* end of the block: the permit is dropped *)
| PcEnd.                    (* break: 186, 239 *)

(** [dm_permits]: available permits of the semaphore (158, 222); [dm_live]: the
    connections whose handler task runs; [dm_next]: name of the next connection;
    [dm_chan]: errors sent to the main loop (185, 238, 257); [dm_exit]: the
    exit code, once the main loop has ended. *)
Record daemon := Daemon {
  dm_pc : accept_pc;
  dm_permits : N;
  dm_live : list N;
  dm_next : N;
  dm_chan : list string;
  dm_exit : option (res unit)
}.

Definition daemon_start (num_connections : N) : daemon := Daemon PcAccept num_connections [] 0 [] None.

Inductive devent :=
| EvAccept (r : res unit)     (* accept returns *)
| EvTask                      (* the accept task runs to its next await point *)
| EvFinish (c : N) (r : res unit)  (* the handler of c ends, with this result *)
| EvMaintain (r : res unit)   (* letmeinfwd only: maintenance returns (251-260) *)
| EvTerm | EvInt | EvHup      (* signals: letmeind 197-207, letmeinfwd 268-278 *)
| EvChannel.                  (* the main loop receives an error: 208-211, 279-286 *)

Definition remove_conn (c : N) (l : list N) : list N := filter (fun x => negb (x =? c)) l.

(** One step; [None]: not possible.  After the main loop has ended nothing runs
    but the end of the program. *)
Definition dstep (d : daemon) (ev : devent) : option daemon :=
  match dm_exit d with
  | Some _ => None
  | None =>
      let set pc permits live next chan ex := Some (Daemon pc permits live next chan ex) in
      match ev with
      | EvAccept r =>
          match dm_pc d, r with
          | PcAccept, Ok _ => set (PcAcquire (dm_next d)) (dm_permits d) (dm_live d) (dm_next d + 1) (dm_chan d) None
          | PcAccept, Err e => set PcEnd (dm_permits d) (dm_live d) (dm_next d) (dm_chan d ++ [e]) None
          | _, _ => None
          end
      | EvTask =>
          match dm_pc d with
          | PcAcquire c =>
              if dm_permits d =? 0 then None
              else set (PcHold c) (dm_permits d - 1) (dm_live d) (dm_next d) (dm_chan d) None
          | PcHold c => set PcDrop (dm_permits d) (dm_live d ++ [c]) (dm_next d) (dm_chan d) None
          | PcDrop => set PcAccept (dm_permits d + 1) (dm_live d) (dm_next d) (dm_chan d) None
          | _ => None
          end
      | EvFinish c _ =>
          if existsb (N.eqb c) (dm_live d)
          then set (dm_pc d) (dm_permits d) (remove_conn c (dm_live d)) (dm_next d) (dm_chan d) None
          else None
      | EvMaintain r =>
          match r with
          | Ok _ => Some d
          | Err e => set (dm_pc d) (dm_permits d) (dm_live d) (dm_next d) (dm_chan d ++ [e]) None
          | Panic => None
          end
      | EvTerm => set (dm_pc d) (dm_permits d) (dm_live d) (dm_next d) (dm_chan d) (Some (Ok tt))
      | EvInt => set (dm_pc d) (dm_permits d) (dm_live d) (dm_next d) (dm_chan d) (Some (Err "Interrupted by SIGINT."))
      | EvHup => Some d
      | EvChannel =>
          match dm_chan d with
          | [] => None
          | e :: r => set (dm_pc d) (dm_permits d) (dm_live d) (dm_next d) r (Some (Err e))
          end
      end
  end.

Fixpoint drun (d : daemon) (h : list devent) : option daemon :=
  match h with
  | [] => Some d
  | ev :: r => match dstep d ev with Some d1 => drun d1 r | None => None end
  end.

(** The connections of letmeind that exist: those with a handler and the one the
    accept task holds.  A handler marks its connection as closed before it ends
    (main.rs 178). *)
Definition open_conns (d : daemon) : list N :=
  match dm_pc d with PcAcquire c | PcHold c => dm_live d ++ [c] | _ => dm_live d end.

(** How the process letmeind ends: dropping the runtime drops all tasks and
    their connections; [Drop for Connection] panics for one that is not closed
    (letmeind/src/server.rs 78-83), which aborts the process (/repo/Cargo.toml:
    panic = "abort"). *)
Definition letmeind_end (d : daemon) : option (res unit) :=
  match dm_exit d with
  | None => None
  | Some r => match open_conns d with [] => Some r | _ => Some Panic end
  end.

(** How letmeinfwd ends (main.rs 291-303): it always runs [shutdown], whose
    result is [r]. *)
Definition letmeinfwd_end (d : daemon) (r : res unit) : option (res unit) :=
  match dm_exit d with
  | None => None
  | Some code =>
      match r with
      | Ok _ => Some code
      | Err _ => match code with Ok _ => Some (Err "Failed to remove firewall rules") | _ => Some code end
      | Panic => Some Panic
      end
  end.
