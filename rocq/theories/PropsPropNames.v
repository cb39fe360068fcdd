(** Property C30 for event and group properties. *)
From Coq Require Import List NArith ZArith String Ascii Bool Lia.
From Verif Require Import AMap Kv KvKeys KvKeysFacts KvFacts Md MdOps MdFrame MdIndex MdEntities MdProps PropsNames.
Import ListNotations.
Local Open Scope string_scope.

(** No two properties of one kind (events, or one group type) in a project share a name;
    lookup by name finds exactly the property which has the name. *)
Theorem C30_property_names_unique :
  forall snake p kd ops, forallb wf_op ops = true ->
    let s := md_run snake ops [] in
    (forall i j x y, prop_by_id p kd i s = Ok x -> prop_by_id p kd j s = Ok y -> pp_name x = pp_name y -> i = j) /\
    (forall n x, prop_by_name p kd n s = Ok x <-> exists id, prop_by_id p kd id s = Ok x /\ pp_name x = n) /\
    (forall i j x y d, prop_by_id p kd i s = Ok x -> prop_by_id p kd j s = Ok y -> pp_display x = Some d -> pp_display y = Some d -> i = j).
Proof.
  intros snake p kd ops W s. pose proof (props_reach snake p kd ops W) as Hx. fold s in Hx. split; [|split].
  - intros i j x y Hi Hj Hn.
    destruct (prop_by_id_ok _ _ _ _ _ Hx Hi) as [Ei Ki]. destruct (prop_by_id_ok _ _ _ _ _ Hx Hj) as [Ej Kj].
    apply prop_by_id_spec in Hi, Hj.
    eapply (Indexed_unique _ _ s i j (RProperty x) (RProperty y)); eauto;
      [rewrite <- Ei, <- Ki; apply prop_iks_self|rewrite <- Ej, <- Kj; apply prop_iks_self|left; reflexivity|left; now rewrite Hn].
  - intros n x. now apply prop_by_name_iff.
  - intros i j x y d Hi Hj Hd He.
    destruct (prop_by_id_ok _ _ _ _ _ Hx Hi) as [Ei Ki]. destruct (prop_by_id_ok _ _ _ _ _ Hx Hj) as [Ej Kj].
    apply prop_by_id_spec in Hi, Hj.
    eapply (Indexed_unique _ _ s i j (RProperty x) (RProperty y)); eauto;
      [rewrite <- Ei, <- Ki; apply prop_iks_self|rewrite <- Ej, <- Kj; apply prop_iks_self| |].
    + apply iks_in. right. left. rewrite Hd. reflexivity.
    + apply iks_in. right. left. now rewrite He.
Qed.
Print Assumptions C30_property_names_unique.
(** A name which a property has is refused without effect; any other name is accepted by
    create unless a display name collides, and is found afterwards. *)
Theorem C30_property_name_taken :
  forall snake p kd ops n t sys, forallb wf_op ops = true ->
    let s := md_run snake ops [] in
    let r := prop_create snake p kd n None t sys s in
    ((exists id x, prop_by_id p kd id s = Ok x /\ pp_name x = n) -> r = (Err AlreadyExists, s)) /\
    (forall x, fst r = Ok x -> pp_name x = n /\ pp_type x = t /\ prop_by_name p kd n (snd r) = Ok x /\
       forall id y, prop_by_id p kd id s = Ok y -> pp_name y <> n /\ id <> pp_id x).
Proof.
  intros snake p kd ops n t sys W s r. pose proof (props_reach snake p kd ops W) as Hx. fold s in Hx.
  assert (T : (exists id x, prop_by_id p kd id s = Ok x /\ pp_name x = n) -> check_insert s (prop_keys p kd n None) = false).
  { intros (id & x & Hi & <-). destruct (prop_by_id_ok _ _ _ _ _ Hx Hi) as [Ei Ki]. apply prop_by_id_spec in Hi.
    destruct (ix_data _ _ _ Hx _ _ Hi) as (r' & ks & [= <-] & Hk & Hin). rewrite <- Ki, prop_iks_self in Hk. injection Hk as _ <-.
    destruct (check_insert s (prop_keys p kd (pp_name x) None)) eqn:C; [|reflexivity]. rewrite prop_okeys in C.
    apply (proj1 (check_insert_spec _ _ _)) with (ik := (IName, pp_name x)) in C; [|left; reflexivity].
    rewrite Hin in C; [discriminate|left; reflexivity]. }
  split; [intro H; unfold r, prop_create; now rewrite (T H)|].
  intros x Hr.
  assert (Nn : prop_by_name p kd n s = Err NotFound).
  { destruct (prop_by_name p kd n s) as [y|e] eqn:E.
    - apply prop_by_name_iff in E as (id & Hi & Hn); [|exact Hx]. unfold r, prop_create in Hr. rewrite T in Hr; [discriminate|eauto].
    - unfold prop_by_name in E. replace (make_index_key (prop_ns p kd) "name" n) with (render (kidx (kind_ns p kd) (IName, n))) in E by now destruct kd.
      pose proof (get_index_ix _ _ s IName n Hx) as G. destruct (get_index s _) as [id|e'].
      + destruct (ix_idx _ _ _ Hx _ _ G) as (id' & q & ks & [= <-] & Hd & Hk & _). unfold prop_by_id in E. rewrite prop_data_key in E.
        fold (kg (KData (kind_ns p kd) id) s) in E. rewrite Hd in E. destruct q; discriminate.
      + destruct G as [-> _]. congruence. }
  assert (Hg : prop_get_or_create snake p kd n None t sys s = (Ok x, snd r)).
  { unfold prop_get_or_create. rewrite Nn. fold r. rewrite <- Hr. apply surjective_pairing. }
  destruct (prop_get_or_create_spec _ _ _ _ _ _ _ _ _ _ Hx Hg) as (H1 & H2 & H3).
  assert (Hx' : PropsOk p kd (snd r)) by now apply prop_create_ok.
  split; [exact H2|]. split.
  { unfold r, prop_create in Hr. destruct (check_insert _ _); [|discriminate]. destruct (next_seq _ _) as [[]]; [|discriminate].
    destruct (next_zero_seq _ _) as [[]]; [|discriminate]. cbv zeta in Hr. destruct (negb _); [discriminate|]. now injection Hr as <-. }
  split; [apply prop_by_name_iff; eauto|].
  intros id y Hi. split; [intros <-; assert (T' := T (ex_intro _ id (ex_intro _ y (conj Hi eq_refl)))); unfold r, prop_create in Hr; rewrite T' in Hr; discriminate|].
  intros ->. unfold r, prop_create in Hr. destruct (check_insert _ _); [|discriminate].
  replace (make_id_seq_key (prop_ns p kd)) with (render (KSeq (kind_ns p kd))) in Hr by now destruct kd.
  destruct (next_seq _ s) as [[i|] s1] eqn:En; [|discriminate].
  destruct (next_zero_seq _ _) as [[]]; [|discriminate]. cbv zeta in Hr. destruct (negb _); [discriminate|]. injection Hr as <-. cbn in Hi.
  destruct (next_seq_indexed _ _ _ _ _ Hx En) as (i0 & [= <-] & _ & _ & Hno & _). apply prop_by_id_spec in Hi. congruence.
Qed.
Print Assumptions C30_property_name_taken.
(** Two properties of one kind and one of another with the same name. *)
Example C30_property_witness :
  let ops := [OPropCreate 1 KEvent "Price" None (PBase TDecimal) false; OPropCreate 1 KEvent "Size" (Some "Size (cm)") (PBase TInt16) false;
              OPropCreate 1 (KGroup 0) "Price" None (PBase TString) false; OPropDelete 1 KEvent 1] in
  let s := md_run (fun x => x) ops [] in
  forallb wf_op ops = true /\ prop_by_id 1 KEvent 1 s = Err NotFound /\
  prop_by_name 1 KEvent "Size" s = Ok (mkProperty 2 KEvent "Size" (Some "Size (cm)") 0 (PBase TInt16) false) /\
  fst (prop_create (fun x => x) 1 KEvent "Price" None (PBase TString) false s) = Ok (mkProperty 3 KEvent "Price" None 1 (PBase TString) false) /\
  fst (prop_create (fun x => x) 1 KEvent "Size" None (PBase TString) false s) = Err AlreadyExists.
Proof. vm_compute. repeat split. Qed.
