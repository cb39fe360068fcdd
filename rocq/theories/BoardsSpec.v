(** What callers of dashboards, saved reports and bookmarks may ask: the numbers fit their
    types, and fewer calls are made than there are numbers. *)
From Coq Require Import List NArith ZArith Bool.
From Verif Require Import Bytes BytesFacts Value SavedQuery SavedQueryFacts RecCodec RecSpec Boards.
Import ListNotations.
Local Open Scope N_scope.

Definition board_op_ok (is_time : Z -> Prop) (o : BoardOp) : Prop :=
  match o with
  | BDashCreate p q now => u64 p /\ u64 (dc_by q) /\ time_ok now /\ Forall panel_ok (dc_panels q)
  | BDashUpdate p id q now => u64 (du_by q) /\ time_ok now /\ opt (Forall panel_ok) (du_panels q)
  | BRepCreate p q now => u64 p /\ u64 (rc_by q) /\ time_ok now /\ query_ok is_time (rc_query q)
  | BRepUpdate p id q now => u64 (ru_by q) /\ time_ok now /\ opt (query_ok is_time) (ru_query q)
  | BBookCreate p a q d now => u64 p /\ u64 a /\ time_ok now /\ opt (query_ok is_time) q
  | BDashDelete _ _ | BRepDelete _ _ | BBookDelete _ _ _ => True
  end.
Definition board_history (is_time : Z -> Prop) (ops : list BoardOp) : Prop :=
  Forall (board_op_ok is_time) ops /\ N.of_nat (List.length ops) < 2 ^ 64.
(** The times the query language can write down are read back. *)
Definition times_ok (print : Z -> Str) (parse : Str -> option Z) (is_time : Z -> Prop) : Prop :=
  forall t, is_time t -> bytes_ok (print t) /\ parse (print t) = Some t.

(** The project whose dashboards (reports) a call may change. *)
Definition dashboards_of (o : BoardOp) : option N :=
  match o with BDashCreate p _ _ | BDashUpdate p _ _ _ | BDashDelete p _ => Some p | _ => None end.
Definition reports_of (o : BoardOp) : option N :=
  match o with BRepCreate p _ _ | BRepUpdate p _ _ _ | BRepDelete p _ => Some p | _ => None end.
Definition bookmark_of (o : BoardOp) : option (N * N * String.string) :=
  match o with BBookCreate p a _ id _ | BBookDelete p a id => Some (p, a, id) | _ => None end.
