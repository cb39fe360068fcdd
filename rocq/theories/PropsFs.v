(** Properties C19, C69 and C71: files in use are not deleted, unused ones are. *)
From Coq Require Import List NArith Bool Lia String Permutation.
From Verif Require Import AMap ListFacts Fs FsFacts.
Import ListNotations.
Local Open Scope N_scope.


(** ** C19: a removal request deletes the file exactly when every holder has released it.
    [h] is any interleaving of calls by any number of holders; [Some] says no holder
    released more often than it opened. *)
Theorem C19_remove_iff_unheld :
  forall (path : Type) (pdec : forall a b : path, {a = b} + {a <> b}) files h s p,
    fs_run path pdec (mkFs [] files) h = Some s ->
    exists s', fs_run path pdec (mkFs [] files) (h ++ [FTryRemove p]) = Some s' /\
      ((closes path pdec h p < opens path pdec h p)%nat -> fs_files s' = fs_files s) /\
      (closes path pdec h p = opens path pdec h p ->
         forall q, In q (fs_files s') <-> In q (fs_files s) /\ q <> p).
Proof.
  intros path pdec files h s p R. rewrite run_app, R. cbn [fs_run fs_step].
  pose proof (run_count path pdec h _ _ p R) as K. unfold count_of in K at 1. cbn in K.
  rewrite is_opened_count. destruct (N.eqb_spec (count_of path pdec s p) 0) as [Z|Z]; cbn [negb].
  - eexists. split; [reflexivity|]. split; [lia|]. intros _ q. cbn [fs_files]. split.
    + intros I. apply in_remove in I. tauto.
    + intros [I J]. apply in_in_remove; auto.
  - eexists. split; [reflexivity|]. split; [reflexivity|lia].
Qed.
Print Assumptions C19_remove_iff_unheld.

(** A file that exists when it is opened still exists after any further calls, provided
    that at each removal request there are more opens than releases so far. *)
Theorem C19_held_file_stays :
  forall (path : Type) (pdec : forall a b : path, {a = b} + {a <> b}) files h1 s1 h2 s2 p,
    fs_run path pdec (mkFs [] files) h1 = Some s1 -> In p (fs_files s1) ->
    fs_run path pdec (mkFs [] files) (h1 ++ h2) = Some s2 ->
    (forall a b, h2 = a ++ FTryRemove p :: b ->
       (closes path pdec (h1 ++ a) p < opens path pdec (h1 ++ a) p)%nat) ->
    In p (fs_files s2).
Proof.
  intros path pdec files h1 s1 h2 s2 p R1 I R2 H. rewrite run_app, R1 in R2.
  eapply held_file_stays; [exact R2|exact I|]. intros a b E. specialize (H a b E).
  pose proof (run_count path pdec h1 _ _ p R1) as K. unfold count_of in K at 1. cbn in K.
  rewrite opens_app, closes_app in H. lia.
Qed.
Print Assumptions C19_held_file_stays.

(** The life of one scan: between its begin and its end no removal request deletes one of
    its files, whatever other balanced users do. *)
Theorem C19_scan_keeps_its_files :
  forall (path : Type) (pdec : forall a b : path, {a = b} + {a <> b}) files h1 s1 ps h2 s2 p,
    fs_run path pdec (mkFs [] files) h1 = Some s1 ->
    (closes path pdec h1 p <= opens path pdec h1 p)%nat ->
    In p ps -> In p (fs_files s1) ->
    fs_run path pdec (mkFs [] files) (h1 ++ scan_begin ps ++ h2) = Some s2 ->
    (forall a b, h2 = a ++ b -> (closes path pdec a p <= opens path pdec a p)%nat) ->
    In p (fs_files s2).
Proof.
  intros path pdec files h1 s1 ps h2 s2 p R1 B Ip If R2 H.
  assert (O : forall l, opens path pdec (scan_begin l) p = count_occ pdec l p).
  { intros l. unfold opens, scan_begin. induction l as [|q l IH]; cbn; [reflexivity|].
    destruct (pdec p q); destruct (pdec q p); subst; try congruence; cbn; now rewrite IH. }
  assert (C : forall l, closes path pdec (scan_begin l) p = 0%nat).
  { intros l. unfold closes, scan_begin. induction l as [|q l IH]; cbn; auto. }
  assert (N : forall a b, scan_begin ps ++ h2 = a ++ FTryRemove p :: b ->
     exists a', h2 = a' ++ FTryRemove p :: b /\ a = scan_begin ps ++ a').
  { clear - ps. unfold scan_begin. induction ps as [|q l IH]; intros a b E; cbn in *.
    - exists a. auto.
    - destruct a as [|c a]; [discriminate|]. inversion E as [[E1 E2]].
      destruct (IH _ _ E2) as (a' & -> & ->). exists a'. auto. }
  eapply C19_held_file_stays; [exact R1|exact If|exact R2|].
  intros a b E. destruct (N _ _ E) as (a' & E1 & ->).
  rewrite !opens_app, !closes_app, O, C. specialize (H _ _ E1).
  apply (count_occ_In pdec) in Ip. lia.
Qed.
Print Assumptions C19_scan_keeps_its_files.

Example C19_witness :
  let h := [FOpen "a"; FOpen "b"; FOpen "a"; FClose "a"; FTryRemove "a"; FClose "b"; FTryRemove "b"]%string in
  option_map fs_files (fs_run _ string_dec (mkFs [] ["a"; "b"]%string) h) = Some ["a"%string]
  /\ closes _ string_dec h "a"%string = 1%nat /\ opens _ string_dec h "a"%string = 2%nat.
Proof. repeat split. Qed.

(** ** C69: a part file replaced by a compaction is deleted once no scan uses it.
    Holds for parts written by a flush. *)
Theorem C69_flushed_parts_are_deleted_partial :
  forall (path : Type) (pdec : forall a b : path, {a = b} + {a <> b}) files h s p,
    fs_run path pdec (mkFs [] files) (flush_output p ++ h ++ compaction_input p) = Some s ->
    closes path pdec h p = opens path pdec h p ->
    ~ In p (fs_files s).
Proof.
  intros path pdec files h s p R B I. unfold compaction_input in R.
  change [FOpen p; FClose p; FTryRemove p] with ([FOpen p; FClose p] ++ [FTryRemove p]) in R.
  rewrite !app_assoc in R. set (hh := ((flush_output p ++ h) ++ [FOpen p; FClose p])) in *.
  destruct (fs_run path pdec (mkFs [] files) hh) as [s0|] eqn:E.
  2:{ rewrite run_app, E in R. discriminate. }
  destruct (C19_remove_iff_unheld path pdec files hh s0 p E) as (s' & R' & _ & D).
  rewrite R in R'. injection R' as <-. apply D in I; [tauto|].
  subst hh. unfold opens, closes, flush_output in *. rewrite !filter_app, !app_length. cbn.
  destruct (pdec p p); [|contradiction]. cbn. rewrite B. lia.
Qed.
Print Assumptions C69_flushed_parts_are_deleted_partial.

(** Completed scans and flushes, interleaved in any way, do not prevent the deletion. *)
Theorem C69_completed_scans_release_partial :
  forall (path : Type) (pdec : forall a b : path, {a = b} + {a <> b}) files
         (scans : list (list path)) (flushed : list path) h s p,
    Permutation h (List.concat (map (fun ps => scan_begin ps ++ scan_end ps) scans)
                   ++ List.concat (map flush_output flushed)) ->
    fs_run path pdec (mkFs [] files) (flush_output p ++ h ++ compaction_input p) = Some s ->
    ~ In p (fs_files s).
Proof.
  intros path pdec files scans flushed h s p P R.
  apply (C69_flushed_parts_are_deleted_partial _ _ _ _ _ _ R).
  assert (Po : forall a b, Permutation a b -> opens path pdec a p = opens path pdec b p).
  { intros a b H. unfold opens. apply Permutation_length. now apply Permutation_filter. }
  assert (Pc : forall a b, Permutation a b -> closes path pdec a p = closes path pdec b p).
  { intros a b H. unfold closes. apply Permutation_length. now apply Permutation_filter. }
  rewrite (Po _ _ P), (Pc _ _ P), opens_app, closes_app. clear - scans.
  assert (S1 : closes path pdec (List.concat (map (fun ps => scan_begin ps ++ scan_end ps) scans)) p
             = opens path pdec (List.concat (map (fun ps => scan_begin ps ++ scan_end ps) scans)) p).
  { induction scans as [|ps r IH]; [reflexivity|]. cbn [map List.concat].
    rewrite !opens_app, !closes_app, IH. f_equal. clear. unfold scan_begin, scan_end.
    assert (A : opens path pdec (map FClose ps) p = 0%nat /\ closes path pdec (map FOpen ps) p = 0%nat
                /\ closes path pdec (map FClose ps) p = opens path pdec (map FOpen ps) p).
    { unfold opens, closes. induction ps as [|q l (A & B & C)]; [auto|]. cbn [map filter].
      destruct (pdec p q); cbn [List.length]; auto. }
    lia. }
  assert (S2 : closes path pdec (List.concat (map flush_output flushed)) p
             = opens path pdec (List.concat (map flush_output flushed)) p).
  { induction flushed as [|q r IH]; [reflexivity|]. cbn [map List.concat].
    rewrite !opens_app, !closes_app, IH. f_equal. unfold opens, closes, flush_output. cbn [filter].
    destruct (pdec p q); reflexivity. }
  lia.
Qed.
Print Assumptions C69_completed_scans_release_partial.

(** It fails for every part written by a compaction: its counter never returns to zero, so
    it survives the compaction that replaces it and every later gc pass. *)
Theorem C69_compacted_parts_leak_refuted :
  forall (path : Type) (pdec : forall a b : path, {a = b} + {a <> b}) files h s p,
    fs_run path pdec (mkFs [] files) (compaction_output p ++ h) = Some s ->
    (forall a b, h = a ++ b -> (closes path pdec a p <= opens path pdec a p)%nat) ->
    In p (fs_files s).
Proof.
  intros path pdec files h s p R H.
  assert (E : exists c, fs_run path pdec (mkFs [] files) (compaction_output p) = Some (mkFs c (p :: files)))
    by (eexists; reflexivity).
  destruct E as [c E].
  eapply C19_held_file_stays; [exact E|left; reflexivity|exact R|].
  intros a b Eh. specialize (H _ _ Eh). rewrite opens_app, closes_app.
  unfold compaction_output, opens at 1, closes at 1. cbn. destruct (pdec p p); [|contradiction]. cbn. lia.
Qed.
Print Assumptions C69_compacted_parts_leak_refuted.

(** The same after a scan whose stream is dropped before its end (no Drop releases). *)
Theorem C69_abandoned_scan_leaks_refuted :
  forall (path : Type) (pdec : forall a b : path, {a = b} + {a <> b}) ps h s p,
    In p ps -> fs_run path pdec (mkFs [] ps) (scan_begin ps ++ h) = Some s ->
    (forall a b, h = a ++ b -> (closes path pdec a p <= opens path pdec a p)%nat) ->
    In p (fs_files s).
Proof.
  intros path pdec ps h s p Ip R H.
  exact (C19_scan_keeps_its_files path pdec ps [] (mkFs [] ps) ps h s p eq_refl (le_n _) Ip Ip R H).
Qed.
Print Assumptions C69_abandoned_scan_leaks_refuted.

Example C69_witness :
  option_map fs_files (fs_run _ string_dec (mkFs [] [])
    (flush_output "p0"%string ++ scan_begin ["p0"%string] ++ scan_end ["p0"%string]
     ++ compaction_output "p1"%string ++ compaction_input "p0"%string
     ++ compaction_input "p1"%string ++ gc_removes "p1"%string)) = Some ["p1"%string].
Proof. reflexivity. Qed.

(** ** C71: the output of a compaction is not deleted before it is published.  One
    collector: from the moment it is created, no removal request deletes it as long as
    other users release no more than they opened. *)
Theorem C71_output_survives_gc_partial :
  forall (path : Type) (pdec : forall a b : path, {a = b} + {a <> b}) files h s p,
    fs_run path pdec (mkFs [] files) ([FOpen p; FCreate p] ++ h) = Some s ->
    (forall a b, h = a ++ b -> (closes path pdec a p <= opens path pdec a p)%nat) ->
    In p (fs_files s).
Proof.
  intros path pdec files h s p R H.
  assert (E : exists c, fs_run path pdec (mkFs [] files) [FOpen p; FCreate p] = Some (mkFs c (p :: files)))
    by (eexists; reflexivity).
  destruct E as [c E]. eapply C19_held_file_stays; [exact E|left; reflexivity|exact R|].
  intros a b Eh. specialize (H _ _ Eh). rewrite opens_app, closes_app.
  unfold opens at 1, closes at 1. cbn. destruct (pdec p p); [|contradiction]. cbn. lia.
Qed.
Print Assumptions C71_output_survives_gc_partial.

(** After a restore the second collector deletes it at its next pass, whatever the main
    counters say. *)
Theorem C71_after_restore_refuted :
  forall (path : Type) (pdec : forall a b : path, {a = b} + {a <> b}) m p,
    exists m' other, run2 path pdec (m, []) [(false, FOpen p); (false, FCreate p); (true, FTryRemove p)] = Some (m', other)
      /\ ~ In p (fs_files m') /\ count_of path pdec m' p = count_of path pdec m p + 1.
Proof.
  intros path pdec m p. cbn. do 2 eexists. split; [reflexivity|]. split.
  - cbn [fs_files]. destruct (pdec p p); [|contradiction]. intros I. now apply remove_In in I.
  - unfold count_of at 1. cbn [fs_count]. now rewrite aget_aset_eq.
Qed.
Print Assumptions C71_after_restore_refuted.
