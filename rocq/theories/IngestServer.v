(** The ingest server: the track and identify calls behind their locks.
    src/ingester/src/sources/http/mod.rs 141-262. *)
From Coq Require Import List NArith ZArith String Bool.
From Verif Require Import Kv Md MdOps Ingest.
Import ListNotations.

(** 141-145: one executor for the track calls of all projects behind one lock, one for the
    identify calls behind another.  A thread that panics while it holds a lock leaves the
    lock poisoned (std::sync::Mutex); nothing in the program clears a poisoned lock, and no
    panic is caught.  [true]: poisoned. *)
Record Server := mkServer { sv_st : St; sv_track : bool; sv_identify : bool }.
(** A server just started (245-248: new locks at every start). *)
Definition up (s : St) : Server := mkServer s false false.

(** What happens: a call of the ingester, a metadata call of another part of the program
    (the metadata store is shared), or a restart. *)
Inductive Ev := ECall (c : Call) | EMd (o : MdOp) | ERestart.
Definition is_track (c : Call) : bool := match c with CTrack _ _ => true | CIdentify _ => false end.
Definition crashed (y : Res unit) : bool := match y with Err Panicked => true | _ => false end.

Section Server.
Variable snake : string -> string.
Variable isdict : Property -> bool.
Variables (enc : SVal -> N) (dcv : N -> SVal).

(** One call without the lock. *)
Definition perform (c : Call) (s : St) : Res unit * St :=
  match c with
  | CTrack now r => track snake isdict dcv now r s
  | CIdentify r => identify snake isdict enc dcv r s
  end.
(** 192 and 236: [lock().unwrap()] panics when the lock is poisoned; the guard lives until
    the end of the call, so a panic inside poisons the lock.  What the call wrote before the
    panic stays. *)
Definition serve (e : Ev) (sv : Server) : option (Res unit) * Server :=
  match e with
  | ECall c =>
    if (if is_track c then sv_track sv else sv_identify sv) then (Some (Err Panicked), sv)
    else let (y, s) := perform c (sv_st sv) in
         (Some y, if is_track c then mkServer s (crashed y) (sv_identify sv) else mkServer s (sv_track sv) (crashed y))
  | EMd o => let s := sv_st sv in
             (None, mkServer (mkSt (md_step snake o (st_md s)) (st_events s) (st_groups s)) (sv_track sv) (sv_identify sv))
  | ERestart => (None, up (sv_st sv))
  end.
Fixpoint serve_all (es : list Ev) (sv : Server) : list (option (Res unit)) * Server :=
  match es with
  | [] => ([], sv)
  | e :: r => let (a, sv1) := serve e sv in let (l, sv2) := serve_all r sv1 in (a :: l, sv2)
  end.
End Server.
