(** When a custom event can be made of its parts: everything it is made of, directly or through
    other custom events, exists, and it is no more than so many levels deep. *)
From Coq Require Import List NArith String.
From Verif Require Import Kv Md.
Import ListNotations.
Local Open Scope N_scope.

(** [parts p s n evs l]: every event and custom event in [evs], and in the custom events of [evs]
    and so on, is one of the project; custom events are nested at most [n] levels; [l] are the
    numbers of all the custom events met, in the order met, once for each time they are met. *)
Inductive parts (p : N) (s : Md.Store) : nat -> list EventRef -> list N -> Prop :=
| parts_none n : parts p s n [] []
| parts_name n x e r l : event_by_name p x s = Ok e -> parts p s n r l -> parts p s n (RefName x :: r) l
| parts_event n i e r l : event_by_id p i s = Ok e -> parts p s n r l -> parts p s n (RefRegular i :: r) l
| parts_custom n i c r l1 l2 : custom_by_id p i s = Ok c -> parts p s n (ce_events c) l1 -> parts p s (S n) r l2 ->
    parts p s (S n) (RefCustom i :: r) (i :: l1 ++ l2)%list.
(** No custom event of the project, but perhaps [i], has the name. *)
Definition free_name (p : N) (s : Md.Store) (i : option N) (name : string) : Prop :=
  forall j c, Some j <> i -> custom_by_id p j s = Ok c -> ce_name c <> name.
