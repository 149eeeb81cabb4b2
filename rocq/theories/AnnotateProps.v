(** C87: annotating a backup. *)
From Verif Require Import Base Str RegNameModel ExpireModel AnnotateModel AnnotateSpec AnnotateProof.
From Coq Require Import String List.
Open Scope Z_scope. Open Scope list_scope.

(** The annotations of a backup: new values replace old ones, empty ones remove them, and the others stay. *)
Theorem C87_set l label new : In label (map nLabel l) -> Forall (fun e => NoDup (map fst (kvs (nAnnot e)))) l -> NoDup (map fst new) -> infoAnnotated label new l (annotationSet l label new).
Proof. intros I U M. apply set_spec; [now apply label_in|exact U|exact M]. Qed.
Print Assumptions C87_set.
(** With one repository, or one asked for, the command succeeds just if the label is one, backup.info can be loaded and has it; then the backup is annotated, and it is saved so that it can be
    loaded.  Else nothing changes. *)
Theorem C87_one repoOpt label new repos i r : (repoOpt = Some i \/ repoOpt = None /\ i = O /\ List.length repos = 1%nat) -> nth_error repos i = Some r -> NoDup (map fst new) ->
  (forall l, loadInfo r = Ok l -> Forall (fun e => NoDup (map fst (kvs (nAnnot e)))) l) ->
  let out := cmdAnnotate repoOpt label new repos in
  match snd out with
  | Ok _ => labelAny label = true /\ exists l l2 r2, loadInfo r = Ok l /\ infoAnnotated label new l l2 /\ nth_error (fst out) i = Some r2 /\ pKey r2 = pKey r /\ loadInfo r2 = Ok l2 /\
      forall j, j <> i -> nth_error (fst out) j = nth_error repos j
  | Err e => fst out = repos /\ (e = EOptionInvalidValue /\ labelAny label = false \/ e = ECommand /\ (forall l, loadInfo r <> Ok l) \/ e = EBackupSetInvalid /\ exists l, loadInfo r = Ok l /\ ~ In label (map nLabel l))
  | UB => False
  end.
Proof.
  intros RO R M U. unfold cmdAnnotate. destruct (labelAny label) eqn:LA; cbn [negb]; [|split; [reflexivity|now left]].
  assert (X : (match repoOpt with Some i => i | None => O end) = i /\ (match repoOpt with Some i => [i] | None => seq 0 (List.length repos) end) = [i]).
  { destruct RO as [->|(-> & -> & ->)]; split; reflexivity. }
  destruct X as (-> & ->). cbn [fold_left]. unfold annotateRepo. rewrite R. destruct (loadInfo r) as [l| |] eqn:L.
  - destruct (labelIn l label) eqn:I; cbn [fst snd Nat.eqb Nat.ltb Nat.leb].
    + split; [reflexivity|]. exists l, (annotationSet l label new), (mkRepo (pKey r) (Some (pKey r, annotationSet l label new))). split; [reflexivity|]. split; [apply set_spec; auto; now apply U|].
      split; [now rewrite update_nth, Nat.eqb_refl, R|]. split; [reflexivity|]. split; [unfold loadInfo; cbn [pInfo pKey]; now rewrite strEqb_refl|]. intros j N. rewrite update_nth. apply Nat.eqb_neq in N. rewrite Nat.eqb_sym in N. now rewrite N.
    + split; [reflexivity|]. right. right. split; [reflexivity|]. exists l. split; [reflexivity|]. rewrite <- label_in, I. discriminate.
  - cbn [fst snd Nat.eqb Nat.ltb Nat.leb]. split; [reflexivity|]. right. left. split; [reflexivity|discriminate].
  - cbn [fst snd Nat.eqb Nat.ltb Nat.leb]. split; [reflexivity|]. right. left. split; [reflexivity|discriminate].
Qed.
Print Assumptions C87_one.
(** No repository but the one asked for, or the first, is ever changed. *)
Theorem C87_default repoOpt label new repos j : j <> match repoOpt with Some i => i | None => O end -> nth_error (fst (cmdAnnotate repoOpt label new repos)) j = nth_error repos j.
Proof.
  intros N. unfold cmdAnnotate. destruct (negb (labelAny label)); [reflexivity|]. set (d := match repoOpt with Some i => i | None => O end) in *. set (idxs := match repoOpt with Some i => [i] | None => _ end).
  destruct (fold_other d label new idxs (repos, O, O)) as (_ & F). destruct (fold_left (annotateRepo d label new) idxs (repos, O, O)) as [[repos2 found] errors]. cbn [fst] in *. now apply F.
Qed.
Print Assumptions C87_default.

Definition lab1 := txt "20201116-200000F".
Definition lab2 := txt "20201117-200000F".
(** With two repositories and a backup in the second: the command succeeds, the backup is not annotated there, and the first repository has lost its own backup.info for that of the second, which
    with another key it can not even load. *)
Theorem C87_repos_refuted : exists label new repos repos2 own, cmdAnnotate None label new repos = (repos2, Ok tt) /\
  (exists r, nth_error repos 1 = Some r /\ nth_error repos2 1 = Some r /\ exists l, loadInfo r = Ok l /\ In label (map nLabel l)) /\
  (exists r, nth_error repos 0 = Some r /\ loadInfo r = Ok own /\ own <> [] /\ ~ In label (map nLabel own)) /\
  (exists r, nth_error repos2 0 = Some r /\ loadInfo r = Err ECrypto).
Proof.
  exists lab2, [(txt "k", txt "v")], [mkRepo (txt "key1") (Some (txt "key1", [mkEntry lab1 None []])); mkRepo (txt "key2") (Some (txt "key2", [mkEntry lab2 None []]))]. eexists. exists [mkEntry lab1 None []].
  split; [vm_compute; reflexivity|]. split; [|split].
  - eexists. split; [vm_compute; reflexivity|]. split; [vm_compute; reflexivity|]. eexists. split; [vm_compute; reflexivity|now left].
  - eexists. split; [vm_compute; reflexivity|]. split; [vm_compute; reflexivity|]. split; [discriminate|]. intros [H|[]]. vm_compute in H. discriminate.
  - eexists. split; vm_compute; reflexivity.
Qed.
Print Assumptions C87_repos_refuted.
(** The same without encryption: the backups of the first repository are gone from its backup.info, and it lists one that it does not have. *)
Theorem C87_lost_refuted : exists label new repos repos2 own, cmdAnnotate None label new repos = (repos2, Ok tt) /\ label <> own /\
  (exists r l, nth_error repos 0 = Some r /\ loadInfo r = Ok l /\ map nLabel l = [own]) /\ (exists r l, nth_error repos2 0 = Some r /\ loadInfo r = Ok l /\ map nLabel l = [label]).
Proof.
  exists lab2, [(txt "k", txt "v")], [mkRepo [] (Some ([], [mkEntry lab1 None []])); mkRepo [] (Some ([], [mkEntry lab2 None []]))]. eexists. exists lab1.
  split; [vm_compute; reflexivity|]. split; [discriminate|]. split; do 2 eexists; (split; [vm_compute; reflexivity|]); split; vm_compute; reflexivity.
Qed.
Print Assumptions C87_lost_refuted.

(** One value replaced, one removed, one added and one kept. *)
Example C87_nontrivial :
  let l := [mkEntry lab1 None [7]; mkEntry lab2 (Some [(txt "a", txt "1"); (txt "b", txt "2"); (txt "c", txt "3")]) [8]] in
  let new := [(txt "a", txt "9"); (txt "b", []); (txt "d", txt "4")] in
  (Forall (fun e => NoDup (map fst (kvs (nAnnot e)))) l /\ NoDup (map fst new)) /\
  annotationSet l lab2 new = [mkEntry lab1 None [7]; mkEntry lab2 (Some [(txt "a", txt "9"); (txt "c", txt "3"); (txt "d", txt "4")]) [8]] /\
  cmdAnnotate (Some 0%nat) lab1 new [mkRepo [] (Some ([], l))] = ([mkRepo [] (Some ([], [mkEntry lab1 (Some [(txt "a", txt "9"); (txt "d", txt "4")]) [7]; mkEntry lab2 (Some [(txt "a", txt "1"); (txt "b", txt "2"); (txt "c", txt "3")]) [8]]))], Ok tt) /\
  snd (cmdAnnotate None (txt "x") new [mkRepo [] (Some ([], l))]) = Err EOptionInvalidValue /\ snd (cmdAnnotate None lab1 new [mkRepo [] None]) = Err ECommand /\ snd (cmdAnnotate None lab1 new [mkRepo [] (Some ([], []))]) = Err EBackupSetInvalid.
Proof.
  cbv zeta. split; [|repeat split; vm_compute; reflexivity]. split; [repeat constructor|]; try (vm_compute; intuition discriminate). repeat constructor; vm_compute; intuition discriminate.
Qed.
