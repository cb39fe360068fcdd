(** Records kept under a namespace together with unique index entries: the invariant kept by
    the create / update / delete functions, once for all entity kinds. *)
From Coq Require Import List NArith ZArith String Ascii Bool Lia.
From Verif Require Import AMap Kv KvKeys KvKeysFacts KvFacts Md MdOps MdFrame.
Import ListNotations.
Local Open Scope string_scope.

Notation IK := (Idx * string)%type.
Definition kidx (ns : Ns) (ik : IK) : Key := KIdx ns (fst ik) (snd ik).
Definition ik_dec : forall a b : IK, {a = b} + {a <> b}.
Proof. repeat decide equality. Defined.
Definition okeys (ns : Ns) (l : list (option IK)) : list (option string) :=
  map (option_map (fun ik => render (kidx ns ik))) l.
Definition iks (l : list (option IK)) : list IK :=
  List.concat (map (fun o => match o with Some x => [x] | None => [] end) l).

Lemma kidx_inj ns a b : kidx ns a = kidx ns b -> a = b.
Proof. destruct a, b. unfold kidx; cbn. now intros [= -> ->]. Qed.
Lemma flat_okeys ns l : flat (okeys ns l) = map (fun ik => render (kidx ns ik)) (iks l).
Proof. unfold flat, okeys, iks. induction l as [|[x|] l IH]; cbn; [reflexivity|f_equal; exact IH|exact IH]. Qed.
Lemma iks_in l x : In x (iks l) <-> In (Some x) l.
Proof.
  unfold iks. induction l as [|[y|] l IH]; cbn; [tauto| |].
  - rewrite IH. split; intros [H|H]; auto; left; congruence.
  - rewrite IH. split; [auto|intros [H|H]; [discriminate|auto]].
Qed.

(** ** Reads after the index functions *)
Lemma kg_insert_in ns l id ik s : In ik (iks l) -> kg (kidx ns ik) (insert_index s (okeys ns l) id) = Some (VNum id).
Proof.
  unfold insert_index. rewrite flat_okeys. generalize (iks l) as ks. intro ks. revert s.
  assert (G : forall ks s, kg (kidx ns ik) s = Some (VNum id) ->
     kg (kidx ns ik) (fold_left (fun s k => kput k (VNum id) s) (map (fun ik => render (kidx ns ik)) ks) s) = Some (VNum id)).
  { intros ks'. induction ks' as [|x r IH]; cbn [fold_left map In]; intros s H; [exact H|]. apply IH.
    destruct (ik_dec ik x) as [->|Ne]; [apply kg_put_eq|]. rewrite kg_put_ne; auto.
    intro E. now apply Ne, (kidx_inj ns). }
  induction ks as [|x r IH]; cbn [fold_left map In]; intros s H; [contradiction|]. destruct H as [->|H]; [|now apply IH].
  apply G, kg_put_eq.
Qed.
Lemma kg_insert_out ns l id k s : wf_key k = true -> (forall ik, In ik (iks l) -> k <> kidx ns ik) ->
  kg k (insert_index s (okeys ns l) id) = kg k s.
Proof.
  unfold insert_index. rewrite flat_okeys. intros W. generalize (iks l) as ks. intro ks. revert s.
  induction ks as [|x r IH]; cbn [fold_left map In]; intros s H; [reflexivity|]. rewrite IH; [|intros; apply H; now right].
  apply kg_put_ne; auto.
Qed.
Lemma kg_delete_in ns l ik s : In ik (iks l) -> kg (kidx ns ik) (delete_index s (okeys ns l)) = None.
Proof.
  unfold delete_index. rewrite flat_okeys. generalize (iks l) as ks. intro ks. revert s.
  assert (G : forall ks s, kg (kidx ns ik) s = None ->
     kg (kidx ns ik) (fold_left (fun s k => kdel k s) (map (fun ik => render (kidx ns ik)) ks) s) = None).
  { intros ks'. induction ks' as [|x r IH]; cbn [fold_left map In]; intros s H; [exact H|]. apply IH.
    destruct (ik_dec ik x) as [->|Ne]; [apply kg_del_eq|]. rewrite kg_del_ne; auto.
    intro E. now apply Ne, (kidx_inj ns). }
  induction ks as [|x r IH]; cbn [fold_left map In]; intros s H; [contradiction|]. destruct H as [->|H]; [|now apply IH].
  apply G, kg_del_eq.
Qed.
Lemma kg_delete_out ns l k s : wf_key k = true -> (forall ik, In ik (iks l) -> k <> kidx ns ik) ->
  kg k (delete_index s (okeys ns l)) = kg k s.
Proof.
  unfold delete_index. rewrite flat_okeys. intros W. generalize (iks l) as ks. intro ks. revert s.
  induction ks as [|x r IH]; cbn [fold_left map In]; intros s H; [reflexivity|]. rewrite IH; [|intros; apply H; now right].
  apply kg_del_ne; auto.
Qed.

Lemma okey_eqb_eq a b : okey_eqb a b = true <-> a = b.
Proof.
  destruct a, b; cbn; try (split; congruence). rewrite String.eqb_eq. split; congruence.
Qed.
Lemma okey_render ns (x y : IK) : okey_eqb (Some (render (kidx ns x))) (Some (render (kidx ns y))) = true <-> x = y.
Proof.
  rewrite okey_eqb_eq. split; [intros [= E]|congruence].
  apply (kidx_inj ns). apply render_inj; auto.
Qed.

(** No new key of one position is the old key of a different position. *)
Definition apart (ks pk : list (option IK)) : Prop :=
  forall i j x, nth_error ks i = Some (Some x) -> nth_error pk j = Some (Some x) -> i = j.

Lemma update_one_get ns id (s : Store) a b k : wf_key k = true ->
  kg k (update_one id s (option_map (fun ik => render (kidx ns ik)) a, option_map (fun ik => render (kidx ns ik)) b)) =
  match a with
  | Some x => if key_dec k (kidx ns x) then Some (VNum id) else
              match b with Some y => if key_dec k (kidx ns y) then None else kg k s | None => kg k s end
  | None => match b with Some y => if key_dec k (kidx ns y) then None else kg k s | None => kg k s end
  end.
Proof.
  intro W. unfold update_one; cbn [fst snd]. destruct a as [x|]; cbn [option_map].
  - destruct (key_dec k (kidx ns x)) as [->|Ne]; [apply kg_put_eq|]. rewrite kg_put_ne; auto.
    destruct b as [y|]; cbn [option_map].
    + destruct (okey_eqb _ _) eqn:E.
      * apply okey_render in E. subst y. destruct (key_dec k (kidx ns x)); [contradiction|reflexivity].
      * destruct (key_dec k (kidx ns y)) as [->|Ny]; [apply kg_del_eq|]. apply kg_del_ne; auto.
    + now destruct (okey_eqb _ _).
  - destruct b as [y|]; cbn [option_map okey_eqb]; [|reflexivity].
    destruct (key_dec k (kidx ns y)) as [->|Ny]; [apply kg_del_eq|]. apply kg_del_ne; auto.
Qed.

Lemma update_index_nil (s : Store) ks id : update_index s ks [] id = s.
Proof. unfold update_index. now destruct ks. Qed.

Lemma kg_update_out ns ks pk id k (s : Store) : wf_key k = true -> List.length ks = List.length pk ->
  (forall ik, In ik (iks ks) -> k <> kidx ns ik) -> (forall ik, In ik (iks pk) -> k <> kidx ns ik) ->
  kg k (update_index s (okeys ns ks) (okeys ns pk) id) = kg k s.
Proof.
  intros W. unfold update_index. revert pk s. induction ks as [|a ks IH]; intros [|b pk] s L H1 H2; cbn [okeys map combine fold_left]; try reflexivity; try discriminate.
  fold (okeys ns ks); fold (okeys ns pk).
  rewrite IH; auto.
  - rewrite (update_one_get ns id s a b k W). destruct a as [x|].
    + destruct (key_dec k (kidx ns x)) as [E|]; [exfalso; apply (H1 x); [now left|exact E]|].
      destruct b as [y|]; [|reflexivity]. destruct (key_dec k (kidx ns y)) as [E|]; [exfalso; apply (H2 y); [now left|exact E]|reflexivity].
    + destruct b as [y|]; [|reflexivity]. destruct (key_dec k (kidx ns y)) as [E|]; [exfalso; apply (H2 y); [now left|exact E]|reflexivity].
  - intros ik Hi. apply H1. rewrite iks_in in *. now right.
  - intros ik Hi. apply H2. rewrite iks_in in *. now right.
Qed.
Lemma kg_update_new ns ks pk id ik (s : Store) : List.length ks = List.length pk -> apart ks pk ->
  In ik (iks ks) -> kg (kidx ns ik) (update_index s (okeys ns ks) (okeys ns pk) id) = Some (VNum id).
Proof.
  unfold update_index. intros L Ap Hin. apply iks_in in Hin. revert pk s L Ap Hin.
  assert (G : forall ks pk (s : Store), List.length ks = List.length pk ->
     (forall j, nth_error pk j = Some (Some ik) -> nth_error ks j = Some (Some ik)) ->
     kg (kidx ns ik) s = Some (VNum id) ->
     kg (kidx ns ik) (fold_left (update_one id) (combine (okeys ns ks) (okeys ns pk)) s) = Some (VNum id)).
  { clear ks. intro ks. induction ks as [|a ks IH]; intros [|b pk] s L A H; cbn [okeys map combine fold_left]; try exact H; try discriminate.
    fold (okeys ns ks); fold (okeys ns pk).
    apply IH; [now injection L|intros j Hj; apply (A (S j) Hj)|].
    rewrite (update_one_get ns id s a b (kidx ns ik) eq_refl).
    destruct a as [x|].
    - destruct (key_dec _ _) as [|Nx]; [reflexivity|]. destruct b as [y|]; [|exact H].
      destruct (key_dec _ _) as [E|]; [|exact H]. apply kidx_inj in E. subst y.
      specialize (A 0%nat eq_refl). cbn in A. injection A as ->. now contradiction Nx.
    - destruct b as [y|]; [|exact H]. destruct (key_dec _ _) as [E|]; [|exact H].
      apply kidx_inj in E. subst y. specialize (A 0%nat eq_refl). discriminate A. }
  induction ks as [|a ks IH]; intros [|b pk] s L Ap Hin; cbn [okeys map combine fold_left In] in *; try contradiction; try discriminate;
  fold (okeys ns ks); fold (okeys ns pk).
  destruct Hin as [->|Hin].
  - apply G; [now injection L| |].
    + intros j Hj. exfalso. discriminate (Ap 0%nat (S j) ik eq_refl Hj).
    + rewrite (update_one_get ns id s (Some ik) b (kidx ns ik) eq_refl).
      destruct (key_dec _ _); [reflexivity|congruence].
  - apply IH; [now injection L| |exact Hin]. intros i j x Hi Hj.
    specialize (Ap (S i) (S j) x Hi Hj). now injection Ap.
Qed.
Lemma kg_update_old ns ks pk id ik (s : Store) : List.length ks = List.length pk ->
  ~ In ik (iks ks) -> In ik (iks pk) -> kg (kidx ns ik) (update_index s (okeys ns ks) (okeys ns pk) id) = None.
Proof.
  unfold update_index. intros L Hn Hin. rewrite iks_in in *. revert pk s L Hn Hin.
  assert (G : forall ks pk (s : Store), List.length ks = List.length pk -> ~ In (Some ik) ks ->
     kg (kidx ns ik) s = None ->
     kg (kidx ns ik) (fold_left (update_one id) (combine (okeys ns ks) (okeys ns pk)) s) = None).
  { clear ks. intro ks. induction ks as [|a ks IH]; intros [|b pk] s L A H; cbn [okeys map combine fold_left]; try exact H; try discriminate.
    fold (okeys ns ks); fold (okeys ns pk).
    apply IH; [now injection L|intro; apply A; now right|].
    rewrite (update_one_get ns id s a b (kidx ns ik) eq_refl).
    destruct a as [x|].
    - destruct (key_dec _ _) as [E|Nx]; [apply kidx_inj in E; subst; exfalso; apply A; now left|].
      destruct b as [y|]; [|exact H]. now destruct (key_dec _ _).
    - destruct b as [y|]; [|exact H]. now destruct (key_dec _ _). }
  induction ks as [|a ks IH]; intros [|b pk] s L Hn Hin; cbn [okeys map combine fold_left In] in *; try contradiction; try discriminate;
  fold (okeys ns ks); fold (okeys ns pk).
  destruct Hin as [->|Hin].
  - apply G; [now injection L|tauto|].
    rewrite (update_one_get ns id s a (Some ik) (kidx ns ik) eq_refl).
    destruct a as [x|].
    + destruct (key_dec _ _) as [E|Nx]; [apply kidx_inj in E; subst; exfalso; apply Hn; now left|].
      now destruct (key_dec _ _).
    + now destruct (key_dec _ _).
  - apply IH; [now injection L|tauto|exact Hin].
Qed.

Lemma check_insert_spec ns l (s : Store) : check_insert s (okeys ns l) = true <-> forall ik, In ik (iks l) -> kg (kidx ns ik) s = None.
Proof.
  unfold check_insert. rewrite flat_okeys, forallb_forall. split.
  - intros H ik Hi. specialize (H _ (in_map _ _ _ Hi)). unfold kg. cbn beta in H. now destruct (kget _ s).
  - intros H x Hx. apply in_map_iff in Hx as (ik & <- & Hi). specialize (H ik Hi). unfold kg in H. now rewrite H.
Qed.
Lemma check_update_spec ns ks pk (s : Store) : check_update s (okeys ns ks) (okeys ns pk) = true <->
  forall i x y, nth_error ks i = Some (Some x) -> nth_error pk i = Some y -> y = Some x \/ kg (kidx ns x) s = None.
Proof.
  unfold check_update. revert pk. induction ks as [|a ks IH]; intro pk.
  { cbn. split; [|reflexivity]. intros _ [|i] ? ? H; discriminate H. }
  destruct pk as [|b pk].
  { cbn. split; [|reflexivity]. intros _ [|i] ? ? ? H; discriminate H. }
  cbn [okeys map combine forallb fst snd]. rewrite andb_true_iff. fold (okeys ns ks) (okeys ns pk). rewrite IH. split.
  - intros [H1 H2] [|i] x y Hx Hy; cbn in Hx, Hy; [|eapply H2; eauto].
    injection Hx as ->. injection Hy as ->. cbn [option_map] in H1. apply orb_true_iff in H1 as [H1|H1].
    + left. destruct y as [y|]; [|discriminate]. apply okey_render in H1. now subst.
    + right. unfold kg. now destruct (kget _ s).
  - intro H. split; [|intros i x y Hx Hy; apply (H (S i) x y Hx Hy)].
    destruct a as [x|]; [|reflexivity]. cbn [option_map]. apply orb_true_iff.
    destruct (H 0%nat x b eq_refl eq_refl) as [->|H1]; [left; now apply okey_render|].
    right. unfold kg in H1. now rewrite H1.
Qed.

(** ** The invariant *)
Section Indexed.
Variable ns : Ns.
(** The id and the index entries of a record of this kind; [None] for other records. *)
Variable keysof : Rec -> option (N * list (option IK)).

Record Indexed (s : Store) : Prop := {
  ix_data : forall id v, kg (KData ns id) s = Some v ->
    exists r ks, v = VRec r /\ keysof r = Some (id, ks) /\
      forall ik, In ik (iks ks) -> kg (kidx ns ik) s = Some (VNum id);
  ix_idx : forall ik v, kg (kidx ns ik) s = Some v ->
    exists id r ks, v = VNum id /\ kg (KData ns id) s = Some (VRec r) /\ keysof r = Some (id, ks) /\ In ik (iks ks);
  ix_seq : match kg (KSeq ns) s with
           | None => forall id, kg (KData ns id) s = None
           | Some (VNum m) => (1 <= m)%N /\ forall id, kg (KData ns id) s <> None -> (1 <= id <= m)%N
           | _ => False
           end
}.

Lemma Indexed_nil : Indexed [].
Proof. constructor; [discriminate|discriminate|intro; reflexivity]. Qed.

Lemma Indexed_frame (P : Key -> Prop) s s' : only P s s' -> (forall k, in_ns ns k -> ~ P k) -> Indexed s -> Indexed s'.
Proof.
  intros O D [H1 H2 H3].
  assert (ED : forall id, kg (KData ns id) s' = kg (KData ns id) s) by (intro; apply (only_kg P); [exact O|reflexivity|apply D; reflexivity]).
  assert (EI : forall ik, kg (kidx ns ik) s' = kg (kidx ns ik) s) by (intro; apply (only_kg P); [exact O|reflexivity|apply D; reflexivity]).
  assert (ES : kg (KSeq ns) s' = kg (KSeq ns) s) by (apply (only_kg P); [exact O|reflexivity|apply D; reflexivity]).
  constructor.
  - intros id v H. rewrite ED in H. destruct (H1 id v H) as (r & ks & -> & Hk & Hi). exists r, ks. repeat split; auto.
    intros ik Hin. rewrite EI. auto.
  - intros ik v H. rewrite EI in H. destruct (H2 ik v H) as (id & r & ks & -> & Hd & Hk & Hi). exists id, r, ks.
    rewrite ED. auto.
  - rewrite ES. destruct (kg (KSeq ns) s) as [[m| |]|]; auto.
    + destruct H3 as [Hm H3]. split; [exact Hm|]. intros id. rewrite ED. auto.
    + intro id. rewrite ED. auto.
Qed.

Lemma next_seq_indexed s r s1 : Indexed s -> next_seq (render (KSeq ns)) s = (r, s1) ->
  exists id, r = Ok id /\ (1 <= id)%N /\ s1 = kput (render (KSeq ns)) (VNum id) s /\ kg (KData ns id) s = None /\
    (forall id', kg (KData ns id') s <> None -> (1 <= id' < id)%N) /\
    id = match kg (KSeq ns) s with Some (VNum m) => (m + 1)%N | _ => 1%N end.
Proof.
  intros Hx E. unfold next_seq, next_from in E. fold (kg (KSeq ns) s) in E.
  pose proof (ix_seq _ Hx) as Hs. destruct (kg (KSeq ns) s) as [[m| |]|] eqn:Es; try contradiction; cbn in E; injection E as <- <-.
  - destruct Hs as [Hm Hs]. exists (m + 1)%N. split; [reflexivity|]. split; [lia|]. split; [reflexivity|]. split; [|split; [|reflexivity]].
    + destruct (kg (KData ns (m + 1)) s) eqn:Ed; [|reflexivity]. exfalso.
      assert (1 <= m + 1 <= m)%N by (apply Hs; congruence). lia.
    + intros id' H. specialize (Hs id' H). lia.
  - exists 1%N. split; [reflexivity|]. split; [lia|]. split; [reflexivity|]. split; [apply Hs|split; [|reflexivity]].
    intros id' H. exfalso. apply H, Hs.
Qed.

(** Creating a record: the id comes from the sequence, none of its index keys is taken. *)
Lemma Indexed_create s id r l s1 :
  Indexed s -> keysof r = Some (id, l) -> check_insert s (okeys ns l) = true ->
  next_seq (render (KSeq ns)) s = (Ok id, s1) ->
  Indexed (insert_index (kput (render (KData ns id)) (VRec r) s1) (okeys ns l) id).
Proof.
  intros Hx Hk Hc Hn.
  destruct (next_seq_indexed _ _ _ Hx Hn) as (id0 & [= <-] & Hge & -> & Hno & Hlt & _).
  rewrite check_insert_spec in Hc. set (s' := insert_index _ _ _).
  assert (Dk : forall i' ik, KData ns i' <> kidx ns ik) by (intros; unfold kidx; discriminate).
  assert (ED : kg (KData ns id) s' = Some (VRec r)).
  { unfold s'. rewrite kg_insert_out; [apply kg_put_eq|reflexivity|intros; apply Dk]. }
  assert (EO : forall i', i' <> id -> kg (KData ns i') s' = kg (KData ns i') s).
  { intros i' Hne. unfold s'. rewrite kg_insert_out; [|reflexivity|intros; apply Dk].
    rewrite !kg_put_ne; [reflexivity|reflexivity|reflexivity|discriminate|reflexivity|reflexivity|congruence]. }
  assert (EI : forall ik, In ik (iks l) -> kg (kidx ns ik) s' = Some (VNum id)) by (intros; now apply kg_insert_in).
  assert (EN : forall ik, ~ In ik (iks l) -> kg (kidx ns ik) s' = kg (kidx ns ik) s).
  { intros ik Hni. unfold s'. rewrite kg_insert_out; [|reflexivity|intros jk Hj E; apply kidx_inj in E; now subst].
    now rewrite !kg_put_ne. }
  assert (ES : kg (KSeq ns) s' = Some (VNum id)).
  { unfold s'. rewrite kg_insert_out; [|reflexivity|intros; discriminate]. rewrite kg_put_ne; [apply kg_put_eq|reflexivity|reflexivity|discriminate]. }
  constructor.
  - intros i' v Hv. destruct (N.eq_dec i' id) as [->|Hne].
    + rewrite ED in Hv. injection Hv as <-. exists r, l. auto.
    + rewrite EO in Hv by exact Hne. destruct (ix_data _ Hx i' v Hv) as (r' & ks & -> & Hk' & Hi).
      exists r', ks. repeat split; auto. intros ik Hin. destruct (in_dec ik_dec ik (iks l)) as [Hl|Hl].
      * specialize (Hi ik Hin). rewrite (Hc ik Hl) in Hi. discriminate.
      * rewrite EN by exact Hl. auto.
  - intros ik v Hv. destruct (in_dec ik_dec ik (iks l)) as [Hl|Hl].
    + rewrite EI in Hv by exact Hl. injection Hv as <-. exists id, r, l. auto.
    + rewrite EN in Hv by exact Hl. destruct (ix_idx _ Hx ik v Hv) as (i' & r' & ks & -> & Hd & Hk' & Hi).
      exists i', r', ks. repeat split; auto. rewrite EO; [exact Hd|]. intros ->. congruence.
  - rewrite ES. split; [exact Hge|]. intros i' Hi'. destruct (N.eq_dec i' id) as [->|Hne]; [lia|].
    rewrite EO in Hi' by exact Hne. specialize (Hlt i' Hi'). lia.
Qed.

(** Replacing a record by one with the same id; [ks]/[pk] are the changed index keys at the
    same positions, [kept] the unchanged ones. *)
Lemma Indexed_update s id r0 r ks pk kept l0 l :
  Indexed s -> kg (KData ns id) s = Some (VRec r0) -> keysof r0 = Some (id, l0) -> keysof r = Some (id, l) ->
  List.length ks = List.length pk -> apart ks pk ->
  (forall x, In x (iks l0) <-> In x (iks pk) \/ In x (iks kept)) ->
  (forall x, In x (iks l) <-> In x (iks ks) \/ In x (iks kept)) ->
  (forall x, In x (iks pk) -> ~ In x (iks kept)) ->
  check_update s (okeys ns ks) (okeys ns pk) = true ->
  Indexed (update_index (kput (render (KData ns id)) (VRec r) s) (okeys ns ks) (okeys ns pk) id).
Proof.
  intros Hx Hd Hk0 Hk L Ap M0 M Disj Hc. rewrite check_update_spec in Hc. set (s' := update_index _ _ _ _).
  assert (Dk : forall i' ik, KData ns i' <> kidx ns ik) by (intros; unfold kidx; discriminate).
  assert (New : forall x, In x (iks ks) -> In x (iks pk) \/ kg (kidx ns x) s = None).
  { intros x Hi. apply iks_in in Hi. apply In_nth_error in Hi as (n & Hn).
    destruct (nth_error pk n) as [y|] eqn:Ey.
    - destruct (Hc n x y Hn Ey) as [->|H]; [left|now right]. apply iks_in. eapply nth_error_In; eauto.
    - apply nth_error_None in Ey. assert (n < List.length ks)%nat by (apply nth_error_Some; congruence). lia. }
  destruct (ix_data _ Hx id _ Hd) as (r0' & l0' & [= <-] & Hk0' & Hi0). rewrite Hk0 in Hk0'. injection Hk0' as <-.
  assert (ED : kg (KData ns id) s' = Some (VRec r)).
  { unfold s'. rewrite kg_update_out; auto. apply kg_put_eq. }
  assert (EO : forall i', i' <> id -> kg (KData ns i') s' = kg (KData ns i') s).
  { intros i' Hne. unfold s'. rewrite kg_update_out; auto. apply kg_put_ne; auto. congruence. }
  assert (ES : kg (KSeq ns) s' = kg (KSeq ns) s).
  { unfold s'. rewrite kg_update_out; auto; try (intros; discriminate). apply kg_put_ne; auto. discriminate. }
  assert (EA : forall ik, In ik (iks ks) -> kg (kidx ns ik) s' = Some (VNum id)) by (intros; now apply kg_update_new).
  assert (EB : forall ik, ~ In ik (iks ks) -> In ik (iks pk) -> kg (kidx ns ik) s' = None) by (intros; now apply kg_update_old).
  assert (EC : forall ik, ~ In ik (iks ks) -> ~ In ik (iks pk) -> kg (kidx ns ik) s' = kg (kidx ns ik) s).
  { intros ik N1 N2. unfold s'. rewrite kg_update_out; auto.
    - apply kg_put_ne; auto.
    - intros jk Hj E. apply kidx_inj in E. now subst.
    - intros jk Hj E. apply kidx_inj in E. now subst. }
  constructor.
  - intros i' v Hv. destruct (N.eq_dec i' id) as [->|Hne].
    + rewrite ED in Hv. injection Hv as <-. exists r, l. repeat split; auto. intros ik Hin.
      destruct (in_dec ik_dec ik (iks ks)) as [Hn|Hn]; [auto|].
      apply M in Hin as [Hin|Hin]; [contradiction|]. rewrite EC; auto.
      * apply Hi0, M0. now right.
      * intro Hp. now apply (Disj ik).
    + rewrite EO in Hv by exact Hne. destruct (ix_data _ Hx i' v Hv) as (r' & ks' & -> & Hk' & Hi).
      exists r', ks'. repeat split; auto. intros ik Hin. specialize (Hi ik Hin).
      assert (Np : ~ In ik (iks pk)).
      { intro Hp. assert (In ik (iks l0)) as H0 by (apply M0; now left). specialize (Hi0 _ H0). congruence. }
      destruct (in_dec ik_dec ik (iks ks)) as [Hn|Hn]; [|rewrite EC; auto].
      destruct (New ik Hn); [contradiction|congruence].
  - intros ik v Hv. destruct (in_dec ik_dec ik (iks ks)) as [Hn|Hn].
    + rewrite EA in Hv by exact Hn. injection Hv as <-. exists id, r, l. repeat split; auto. apply M. now left.
    + destruct (in_dec ik_dec ik (iks pk)) as [Hp|Hp]; [rewrite EB in Hv by assumption; discriminate|].
      rewrite EC in Hv by assumption. destruct (ix_idx _ Hx ik v Hv) as (i' & r' & ks' & -> & Hd' & Hk' & Hi).
      destruct (N.eq_dec i' id) as [->|Hne].
      * exists id, r, l. repeat split; auto. rewrite Hd in Hd'. injection Hd' as <-. rewrite Hk0 in Hk'. injection Hk' as <-.
        apply M0 in Hi as [Hi|Hi]; [contradiction|]. apply M. now right.
      * exists i', r', ks'. repeat split; auto. now rewrite EO.
  - rewrite ES. pose proof (ix_seq _ Hx) as Hs. destruct (kg (KSeq ns) s) as [[m| |]|]; auto.
    + destruct Hs as [Hm Hs]. split; [exact Hm|]. intros i' Hi'. destruct (N.eq_dec i' id) as [->|Hne].
      * apply Hs. congruence.
      * rewrite EO in Hi' by exact Hne. auto.
    + exfalso. rewrite Hs in Hd. discriminate.
Qed.

(** Overwriting a record by one with the same index entries. *)
Lemma Indexed_put s id r0 r l0 l :
  Indexed s -> kg (KData ns id) s = Some (VRec r0) -> keysof r0 = Some (id, l0) -> keysof r = Some (id, l) ->
  (forall x, In x (iks l0) <-> In x (iks l)) -> Indexed (kput (render (KData ns id)) (VRec r) s).
Proof.
  intros Hx Hd H0 H1 M.
  change (Indexed (update_index (kput (render (KData ns id)) (VRec r) s) (okeys ns []) (okeys ns []) id)).
  eapply (Indexed_update s id r0 r [] [] l); eauto; cbn.
  - intros [|i] j x; discriminate.
  - intro x. rewrite M. tauto.
  - intro x. tauto.
Qed.

Lemma Indexed_delete s id r0 l0 :
  Indexed s -> kg (KData ns id) s = Some (VRec r0) -> keysof r0 = Some (id, l0) ->
  Indexed (delete_index (kdel (render (KData ns id)) s) (okeys ns l0)).
Proof.
  intros Hx Hd Hk. set (s' := delete_index _ _).
  assert (Dk : forall i' ik, KData ns i' <> kidx ns ik) by (intros; unfold kidx; discriminate).
  destruct (ix_data _ Hx id _ Hd) as (r0' & l0' & [= <-] & Hk0' & Hi0). rewrite Hk in Hk0'. injection Hk0' as <-.
  assert (ED : kg (KData ns id) s' = None).
  { unfold s'. rewrite kg_delete_out; auto. apply kg_del_eq. }
  assert (EO : forall i', i' <> id -> kg (KData ns i') s' = kg (KData ns i') s).
  { intros i' Hne. unfold s'. rewrite kg_delete_out; auto. apply kg_del_ne; auto. congruence. }
  assert (ES : kg (KSeq ns) s' = kg (KSeq ns) s).
  { unfold s'. rewrite kg_delete_out; auto; try (intros; discriminate). apply kg_del_ne; auto. discriminate. }
  assert (EA : forall ik, In ik (iks l0) -> kg (kidx ns ik) s' = None) by (intros; now apply kg_delete_in).
  assert (EC : forall ik, ~ In ik (iks l0) -> kg (kidx ns ik) s' = kg (kidx ns ik) s).
  { intros ik N1. unfold s'. rewrite kg_delete_out; auto.
    - apply kg_del_ne; auto.
    - intros jk Hj E. apply kidx_inj in E. now subst. }
  constructor.
  - intros i' v Hv. destruct (N.eq_dec i' id) as [->|Hne]; [congruence|].
    rewrite EO in Hv by exact Hne. destruct (ix_data _ Hx i' v Hv) as (r' & ks & -> & Hk' & Hi).
    exists r', ks. repeat split; auto. intros ik Hin. destruct (in_dec ik_dec ik (iks l0)) as [Hl|Hl].
    + specialize (Hi ik Hin). rewrite (Hi0 ik Hl) in Hi. congruence.
    + rewrite EC by exact Hl. auto.
  - intros ik v Hv. destruct (in_dec ik_dec ik (iks l0)) as [Hl|Hl]; [rewrite EA in Hv by exact Hl; discriminate|].
    rewrite EC in Hv by exact Hl. destruct (ix_idx _ Hx ik v Hv) as (i' & r' & ks & -> & Hd' & Hk' & Hi).
    exists i', r', ks. repeat split; auto. rewrite EO; [exact Hd'|]. intros ->. rewrite Hd in Hd'. injection Hd' as <-. congruence.
  - rewrite ES. pose proof (ix_seq _ Hx) as Hs. destruct (kg (KSeq ns) s) as [[m| |]|]; auto.
    + destruct Hs as [Hm Hs]. split; [exact Hm|]. intros i' Hi'. destruct (N.eq_dec i' id) as [->|Hne]; [congruence|].
      rewrite EO in Hi' by exact Hne. auto.
    + exfalso. rewrite Hs in Hd. discriminate.
Qed.

(** Two records never share an index entry. *)
Lemma Indexed_unique s a b ra rb la lb ik :
  Indexed s -> kg (KData ns a) s = Some (VRec ra) -> kg (KData ns b) s = Some (VRec rb) ->
  keysof ra = Some (a, la) -> keysof rb = Some (b, lb) -> In ik (iks la) -> In ik (iks lb) -> a = b.
Proof.
  intros Hx Ha Hb Ka Kb Ia Ib.
  destruct (ix_data _ Hx a _ Ha) as (ra' & la' & [= <-] & Ka' & Fa). rewrite Ka in Ka'. injection Ka' as <-.
  destruct (ix_data _ Hx b _ Hb) as (rb' & lb' & [= <-] & Kb' & Fb). rewrite Kb in Kb'. injection Kb' as <-.
  specialize (Fa ik Ia). specialize (Fb ik Ib). congruence.
Qed.
End Indexed.
