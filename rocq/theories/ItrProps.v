(** C61: iterating over storage gives each entry that matches once, in the order asked for. *)
From Coq Require Import Permutation Sorted String.
From Verif Require Import Base Str RegModel RegSpec RegNameModel RegProps LinkCheckModel ItrModel ItrSpec ItrProof ItrProof2.
Open Scope Z_scope.
Open Scope list_scope.

Lemma gives_det ls recurse order rx a b : gives ls recurse order rx a -> gives ls recurse order rx b -> a = b.
Proof.
  intros (t & H1 & m & H2) (t' & H1' & m' & H2'). rewrite H1 in H1'. injection H1' as <-.
  specialize (H2 (m + m') (m + m'))%nat. specialize (H2' (m + m') (m + m'))%nat. rewrite H2 in H2' by lia. specialize (H2' ltac:(lia) ltac:(lia)). congruence.
Qed.

(** The loop over the iterator ends, without error, whatever tree the storage holds. *)
Theorem C61_ends ls recurse order rx l : holdsAll ls None l -> exists out, gives ls recurse order rx out.
Proof. intros H. eexists. apply (run_gives ls recurse order rx l H). Qed.
Print Assumptions C61_ends.

(** It gives exactly the entries of the tree whose names match, each as often as it is there. *)
Theorem C61_exact ls recurse order rx l out : holdsAll ls None l -> gives ls recurse order rx out ->
  Permutation out (filter (fun x => matched rx (iName x)) (entries recurse l)).
Proof. intros H G. rewrite (gives_det _ _ _ _ _ _ G (run_gives ls recurse order rx l H)). apply run_perm. Qed.
Print Assumptions C61_exact.
Theorem C61_members ls recurse order rx l out x : holdsAll ls None l -> gives ls recurse order rx out ->
  In x out <-> inTree recurse None l x /\ matched rx (iName x) = true.
Proof.
  intros H G. rewrite <- entries_in, <- (filter_In (fun x => matched rx (iName x))). pose proof (C61_exact _ _ _ _ _ _ H G) as P.
  split; apply Permutation_in; [exact P | apply Permutation_sym, P].
Qed.
Print Assumptions C61_members.
(** No entry comes twice. *)
Theorem C61_once ls recurse order rx l out : holdsAll ls None l -> properAll l -> gives ls recurse order rx out -> NoDup (map iName out).
Proof. intros H HP G. rewrite (gives_det _ _ _ _ _ _ G (run_gives ls recurse order rx l H)). apply run_nodup, HP. Qed.
Print Assumptions C61_once.

(** Without an order entries come as the driver has them, a path directly before what is in it. *)
Theorem C61_unordered ls recurse rx l out : holdsAll ls None l -> gives ls recurse OrderNone rx out ->
  out = filter (fun x => matched rx (iName x)) (entries recurse l).
Proof. intros H G. exact (gives_det _ _ _ _ _ _ G (run_none ls recurse rx l H)). Qed.
Print Assumptions C61_unordered.
(** Ascending: ordered part by part, so a path is before what is in it and nothing comes between. *)
Theorem C61_ascending ls recurse rx l out : holdsAll ls None l -> properAll l -> gives ls recurse OrderAsc rx out ->
  StronglySorted (fun x y => before (splitSlash (iName x)) (splitSlash (iName y))) out.
Proof. intros H HP G. rewrite (gives_det _ _ _ _ _ _ G (run_gives ls recurse OrderAsc rx l H)). apply run_sorted, HP. Qed.
Print Assumptions C61_ascending.
(** Descending is the reverse: what is in a path is before the path, so that paths are empty by the time they are removed. *)
Theorem C61_descending ls recurse rx l asc desc : holdsAll ls None l -> properAll l ->
  gives ls recurse OrderAsc rx asc -> gives ls recurse OrderDesc rx desc -> desc = rev asc.
Proof.
  intros H HP G1 G2. rewrite (gives_det _ _ _ _ _ _ G1 (run_gives ls recurse OrderAsc rx l H)), (gives_det _ _ _ _ _ _ G2 (run_gives ls recurse OrderDesc rx l H)).
  apply run_desc, HP.
Qed.
Print Assumptions C61_descending.
(** The order is a strict order. *)
Theorem C61_order_strict : (forall a, ~ before a a) /\ (forall a b c, before a b -> before b c -> before a c).
Proof. split; [exact before_irrefl | exact before_trans]. Qed.
Print Assumptions C61_order_strict.

(** A missing path: an error, nothing at all, or an empty list. *)
Theorem C61_missing ls order e n : ls None = None ->
  storageItrNew ls order e n = if e then Err EFileMissing else if n then Ok None else Ok (Some (mkItr [] None)).
Proof. intros H. unfold storageItrNew, storageItrPathAdd. rewrite H. destruct e, n; reflexivity. Qed.
Print Assumptions C61_missing.
Theorem C61_present ls order e n li : ls None = Some li -> storageItrNew ls order e n = storageItrNew ls order true false.
Proof. intros H. unfold storageItrNew, storageItrPathAdd. rewrite H. destruct li, e, n; reflexivity. Qed.
Print Assumptions C61_present.

(** Asking again whether there is more changes nothing; next gives what more found, and is an error without it. *)
Theorem C61_more_again ls recurse order rx f f' t t' : storageItrMore ls recurse order rx f t = Some (true, t') ->
  storageItrMore ls recurse order rx f' t' = Some (true, t') /\ exists i t'', storageItrNext t' = Ok (i, t'') /\ storageItrNext t'' = Err EAssert.
Proof.
  unfold storageItrMore, storageItrNext. destruct (itNext t) as [i |] eqn:E.
  - intros H. injection H as <-. rewrite E. split; [reflexivity|]. eexists. eexists. split; reflexivity.
  - destruct (search ls recurse order rx f (itStack t)) as [[st [i |]] |]; intros H; inversion H; subst. cbn [itNext]. split; [reflexivity|]. eexists. eexists. split; reflexivity.
Qed.
Print Assumptions C61_more_again.

(** storageList() gives the names that match in the order of the driver. *)
Theorem C61_list ls rx e m li : ls None = Some li ->
  exists b, forall n fuel, (b <= n)%nat -> (b <= fuel)%nat ->
    storageList ls rx e m n fuel = Some (Ok (Some (filter (matched rx) (map iName li)))).
Proof.
  intros H. destruct (run_flat ls OrderNone rx li H) as (t & H1 & b & H2). exists b. intros n fuel Hn Hf. unfold storageList.
  rewrite (C61_present ls OrderNone e m li H), H1, H2 by assumption. cbn [option_map bind storageLstSort]. do 3 f_equal.
  clear. induction li as [| a r IH]; [reflexivity|]. cbn [filter map]. unfold keep at 1. destruct (matched rx (iName a)); cbn [map]; now rewrite IH.
Qed.
Print Assumptions C61_list.
Theorem C61_list_missing ls rx e m n fuel : ls None = None -> (0 < n)%nat -> (0 < fuel)%nat ->
  storageList ls rx e m n fuel = Some (if e then Err EFileMissing else if m then Ok None else Ok (Some [])).
Proof.
  intros H Hn Hf. unfold storageList. rewrite (C61_missing ls OrderNone e m H). destruct e; [reflexivity|]. destruct m; [reflexivity|].
  destruct n; [lia|]. destruct fuel; [lia|]. reflexivity.
Qed.
Print Assumptions C61_list_missing.

(** Without recursion a store that lists only what begins with the prefix of the expression gives the same. *)
Theorem C61_prefix ls order e rx li out out' : ls None = Some li -> regExpNew e = Ok rx -> ~ In 124 e ->
  (forall p, regExpPrefix e = Some p -> notOptional (skipn (S (length p)) e)) ->
  gives ls false order (Some rx) out -> gives (prefixDriver (Some e) ls) false order (Some rx) out' -> out' = out.
Proof.
  intros HL HR HN HO G G'. rewrite (gives_det _ _ _ _ _ _ G (run_flat ls order (Some rx) li HL)).
  refine (gives_det _ _ _ _ _ _ G' (run_prefix ls order (Some rx) e li HL _)).
  intros p i HP _ HM. eapply C60_prefix_no_bar; [exact HN | exact HP | apply HO, HP|]. unfold regExpMatchOne. rewrite HR. cbn [bind]. f_equal. exact HM.
Qed.
Print Assumptions C61_prefix.

(** With recursion it does not: the expression is for the whole name but the prefix is used in every path. *)
Definition sampleLs (sub : option str) : option (list info) :=
  match sub with
  | None => Some [mkInfo (txt "backup") true 1; mkInfo (txt "a.info") false 2]
  | Some p => if strEqb p (txt "backup") then Some [mkInfo (txt "x") false 3; mkInfo (txt "b") true 4]
              else if strEqb p (txt "backup/b") then Some [mkInfo (txt "y") false 5] else None
  end.
Definition sampleTree : list node :=
  [NPath (mkInfo (txt "backup") true 1) (Some [NFile (mkInfo (txt "x") false 3); NPath (mkInfo (txt "b") true 4) (Some [NFile (mkInfo (txt "y") false 5)])]);
   NFile (mkInfo (txt "a.info") false 2)].
Lemma sample_holds : holdsAll sampleLs None sampleTree.
Proof.
  split; [reflexivity|]. intros n [<- | [<- | []]]; cbn [holds sampleTree]; [| reflexivity].
  split; [reflexivity|]. split; [reflexivity|]. split; [reflexivity|]. split; [| exact I]. split; [reflexivity|]. split; [reflexivity|]. split; [reflexivity | exact I].
Qed.
Lemma sample_proper : properAll sampleTree.
Proof.
  assert (N : forall s, existsb (Z.eqb 47) s = false -> forall c, In c s -> c <> 47).
  { intros s H c Hc ->. assert (T : existsb (Z.eqb 47) s = true) by (apply existsb_exists; exists 47; auto). congruence. }
  assert (D : forall a b, strEqb a b = false -> NoDup [a; b]).
  { intros a b E. apply strEqb_neq in E. constructor; [intros [H | []]; congruence | constructor; [intros [] | constructor]]. }
  split; [apply D; reflexivity|]. intros n [<- | [<- | []]]; cbn [proper sampleTree].
  - split; [apply N; reflexivity|]. split; [apply D; reflexivity|]. split; [split; [apply N; reflexivity | exact I]|]. split; [| exact I].
    split; [apply N; reflexivity|]. split; [constructor; [intros [] | constructor]|]. split; [split; [apply N; reflexivity | exact I] | exact I].
  - split; [apply N; reflexivity | exact I].
Qed.
Theorem C61_prefix_recurse_refuted : exists ls l e rx out out',
  holdsAll ls None l /\ properAll l /\ regExpNew e = Ok rx /\ ~ In 124 e /\ (forall p, regExpPrefix e = Some p -> notOptional (skipn (S (length p)) e)) /\
  gives ls true OrderAsc (Some rx) out /\ gives (prefixDriver (Some e) ls) true OrderAsc (Some rx) out' /\
  map iName out = [txt "backup"; txt "backup/b"; txt "backup/b/y"; txt "backup/x"] /\ map iName out' = [txt "backup"].
Proof.
  destruct (regExpNew (txt "^backup")) as [rx | |] eqn:ER; [| vm_compute in ER; discriminate | vm_compute in ER; discriminate].
  exists sampleLs, sampleTree, (txt "^backup"), rx.
  assert (HH : holdsAll (prefixDriver (Some (txt "^backup")) sampleLs) None [NPath (mkInfo (txt "backup") true 1) (Some [])]).
  { split; [reflexivity|]. intros n [<- | []]. split; [reflexivity|]. split; [reflexivity | exact I]. }
  exists (flat_map (outs true OrderAsc (Some rx) None) (sortN OrderAsc (map (sortTree OrderAsc) sampleTree))).
  exists (flat_map (outs true OrderAsc (Some rx) None) (sortN OrderAsc (map (sortTree OrderAsc) [NPath (mkInfo (txt "backup") true 1) (Some [])]))).
  split; [exact sample_holds|]. split; [exact sample_proper|]. split; [exact ER|]. split; [vm_compute; intuition discriminate|].
  split; [intros p E; vm_compute in E; injection E as <-; vm_compute; auto|].
  split; [apply run_gives, sample_holds|]. split; [apply run_gives, HH|].
  vm_compute in ER. injection ER as <-. split; vm_compute; reflexivity.
Qed.
Print Assumptions C61_prefix_recurse_refuted.

Example C61_nontrivial :
  holdsAll sampleLs None sampleTree /\ properAll sampleTree /\
  option_map (fun r => let* l := r in Ok (map iName l)) (match storageItrNew sampleLs OrderDesc true false with Ok (Some t) => drain sampleLs true OrderDesc None 9 9 t | _ => None end) =
  Some (Ok [txt "backup/x"; txt "backup/b/y"; txt "backup/b"; txt "backup"; txt "a.info"]).
Proof. split; [exact sample_holds|]. split; [exact sample_proper | vm_compute; reflexivity]. Qed.
