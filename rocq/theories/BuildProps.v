(** The manifest built from the data directory has what a backup takes, and nothing else. *)
From Coq Require Import String Sorting.Permutation Sorting.Sorted.
From Verif Require Import Base Str NumModel ManifestPackModel ManifestModel RegModel RegSpec RegNameModel LinkCheckModel SpoolModel SpoolProof SelectSpec SelectProof UnloggedModel UnloggedSpec UnloggedProof
  BuildModel BuildSpec BuildProof BuildProof2 BuildProof3 BuildProof4.
Open Scope Z_scope.
Open Scope list_scope.

(** The files are exactly those of the places that are looked at and not left out, with their owner, mode, size, time, block size and page checksum. *)
Theorem C65_files depth w o pg root m f : forallb patChar (boTid o) = true -> manifestBuild depth w o pg root = Ok m ->
  In f (bmFiles m) <-> exists n, reach w o pg n /\ fileNode o n f.
Proof.
  intros HT H. destruct (build_ok _ _ _ _ _ _ HT H) as (m1 & -> & [(x & E & G) _ _ _ _ _]). cbn [sorted bmFiles]. rewrite sortBy_in, E. apply G.
Qed.
Print Assumptions C65_files.
(** The links are exactly those looked at. *)
Theorem C65_links depth w o pg root m k : forallb patChar (boTid o) = true -> manifestBuild depth w o pg root = Ok m ->
  In k (bmLinks m) <-> exists n, reach w o pg n /\ mlinkNode o n k.
Proof.
  intros HT H. destruct (build_ok _ _ _ _ _ _ HT H) as (m1 & -> & [_ (x & E & G) _ _ _ _]). cbn [sorted bmLinks]. rewrite sortBy_in, E. apply G.
Qed.
Print Assumptions C65_links.
(** The targets are the data directory and one of each link. *)
Theorem C65_targets depth w o pg root m t : forallb patChar (boTid o) = true -> manifestBuild depth w o pg root = Ok m ->
  In t (bmTargets m) <-> t = mkMtarget sData true pg None 0 None \/ exists n, reach w o pg n /\ targetNode w o n t.
Proof.
  intros HT H. destruct (build_ok _ _ _ _ _ _ HT H) as (m1 & -> & [_ _ (T & E & G & _) _ _ _]). cbn [sorted bmTargets]. rewrite sortBy_in, E. cbn [start bmTargets app In]. rewrite G.
  unfold rootTarget. intuition congruence.
Qed.
Print Assumptions C65_targets.
(** The paths are the data directory, those looked at, and for tablespaces one for all and one for each. *)
Theorem C65_paths depth w o pg root m p : forallb patChar (boTid o) = true -> manifestBuild depth w o pg root = Ok m -> let base := mkMpath sData (biMode root) (biUser root) (biGroup root) in
  In p (bmPaths m) -> p = base \/ exists n, reach w o pg n /\ (pathNode o n p \/ (spcNode o n /\ (p = like base sSpc \/ spcPath (bmPaths m) n p))).
Proof.
  intros HT H base. destruct (build_ok _ _ _ _ _ _ HT H) as (m1 & -> & [_ _ _ (X & E & G & _) _ _]). cbn [sorted bmPaths]. rewrite sortBy_in, E. intros [<- | Hp]; [now left|]. right.
  destruct (G p Hp) as (n & HN & HG). exists n. split; [exact HN|]. destruct HG as [HG | (HS & [HG | (t & Ht & HG)])]; [now left | now right; split; [|left]|]. right. split; [exact HS|]. right. exists t.
  split; [rewrite sortBy_in, <- E; exact Ht | exact HG].
Qed.
Print Assumptions C65_paths.
Theorem C65_paths_all depth w o pg root m : forallb patChar (boTid o) = true -> manifestBuild depth w o pg root = Ok m -> let base := mkMpath sData (biMode root) (biUser root) (biGroup root) in
  In base (bmPaths m) /\ (forall n p, reach w o pg n -> pathNode o n p -> In p (bmPaths m)) /\
  (forall n, reach w o pg n -> spcNode o n -> In (like base sSpc) (bmPaths m) /\ exists p, spcPath (bmPaths m) n p /\ In p (bmPaths m)).
Proof.
  intros HT H base. destruct (build_ok _ _ _ _ _ _ HT H) as (m1 & -> & [_ _ _ (X & E & _ & G) GS _]). cbn [sorted bmPaths]. split; [rewrite sortBy_in, E; now left|]. split.
  - intros n p HN HP. rewrite sortBy_in, E. right. exact (G n p HN HP).
  - intros n HN HS. destruct (GS n HN HS) as [A (p & (t & Ht & HG) & Hp)]. split; [rewrite sortBy_in; exact A|]. exists p. split; [exists t; rewrite sortBy_in; auto | rewrite sortBy_in; exact Hp].
Qed.
Print Assumptions C65_paths_all.
(** The targets pass the check of destinations, in the order they are found. *)
Theorem C65_link_check depth w o pg root m : forallb patChar (boTid o) = true -> manifestBuild depth w o pg root = Ok m ->
  exists ts, Permutation ts (bmTargets m) /\ manifestLinkCheck ts = Ok tt.
Proof.
  intros HT H. destruct (build_ok _ _ _ _ _ _ HT H) as (m1 & -> & [_ _ (T & E & _ & G) _ _ _]). cbn [sorted bmTargets]. exists (bmTargets m1). split; [apply Permutation_sym, sortBy_perm|].
  unfold manifestLinkCheck. rewrite E. cbn [start bmTargets bmCheck app] in *. cbn [linkCheckLoop]. change (manifestLinkCheckOne (rootTarget pg :: T) [] (rootTarget pg)) with (Ok (@nil litem)). cbn [bind].
  apply (runCheck_loop _ _ _ (bmCheck m1)). rewrite <- G. generalize (@nil litem). clear. generalize T at 1 as rest. intros rest. induction T as [| t r IH]; intros l; cbn [runCheck]; [reflexivity|].
  rewrite (check_base (rootTarget pg) rest l t eq_refl). destruct (manifestLinkCheckOne [rootTarget pg] l t); cbn [bind]; auto.
Qed.
Print Assumptions C65_link_check.
(** Nothing that is refused is in a data directory that is backed up, and each error is from a place in it. *)
Theorem C65_refused depth w o pg root m n e : forallb patChar (boTid o) = true -> manifestBuild depth w o pg root = Ok m -> reach w o pg n -> ~ bad w o n e.
Proof. intros HT H. destruct (build_ok _ _ _ _ _ _ HT H) as (m1 & -> & [_ _ _ _ _ G]). apply G. Qed.
Print Assumptions C65_refused.
Theorem C65_errors depth w o pg root e : forallb patChar (boTid o) = true -> manifestBuild depth w o pg root = Err e -> exists n, reach w o pg n /\ (bad w o n e \/ checkFails o n e).
Proof. apply build_err. Qed.
Print Assumptions C65_errors.
(** Names differ, also across tablespaces and links, and are in order. *)
Theorem C65_sorted depth w o pg root m : worldWf w -> forallb patChar (boTid o) = true -> manifestBuild depth w o pg root = Ok m ->
  StronglySorted slt (map bfName (bmFiles m)) /\ StronglySorted slt (map mlName (bmLinks m)) /\ StronglySorted slt (map mtName (bmTargets m)) /\ StronglySorted sle (map mpName (bmPaths m)).
Proof.
  intros HW HT H. destruct (build_fresh _ _ _ _ _ _ HW HT H) as (N1 & N2 & N3). destruct (build_ok _ _ _ _ _ _ HT H) as (m1 & -> & _). cbn [sorted bmFiles bmLinks bmTargets bmPaths] in *.
  repeat split; try (apply sle_nodup; [| assumption]); apply sortBy_names.
Qed.
Print Assumptions C65_sorted.
(** A result does not depend on the depth allowed. *)
Theorem C65_depth d d' w o pg root : (d <= d')%nat -> manifestBuild d w o pg root <> UB -> manifestBuild d' w o pg root = manifestBuild d w o pg root.
Proof. intros H. exact (build_deeper d d' w o pg root H). Qed.
Print Assumptions C65_depth.
(** Exclusions: those with a slash at the end leave out the contents of a path, others what they name. *)
Theorem C65_exclude l x : (In x (excludeContent l) <-> exists s, In s l /\ slash sData s = x ++ txt "/") /\ (In x (excludeSingle l) <-> exists s, In s l /\ x = slash sData s /\ ~ ends x (txt "/")).
Proof.
  assert (HE : forall s, strEndsWith (sub pgData s) [47] = true <-> exists r, slash sData s = r ++ txt "/") by (intros s; apply ends_iff). split.
  - unfold excludeContent. rewrite in_map_iff. split.
    + intros (s & <- & Hs). apply filter_In in Hs. destruct Hs as [Hs HX]. exists s. split; [exact Hs|]. apply HE in HX. destruct HX as (r & E). change (sub pgData s) with (slash sData s). rewrite E. f_equal.
      symmetry. apply removelast_last.
    + intros (s & Hs & E). exists s. split; [change (sub pgData s) with (slash sData s); rewrite E; apply removelast_last | apply filter_In; split; [exact Hs | apply HE; eauto]].
  - unfold excludeSingle. rewrite in_map_iff. split.
    + intros (s & <- & Hs). apply filter_In in Hs. destruct Hs as [Hs HX]. exists s. split; [exact Hs|]. split; [reflexivity|]. intros F. apply negb_true_iff in HX. apply HE in F. congruence.
    + intros (s & Hs & -> & HX). exists s. split; [reflexivity|]. apply filter_In. split; [exact Hs|]. apply negb_true_iff, not_true_iff_false. intros F. apply HX, HE, F.
Qed.
Print Assumptions C65_exclude.

(** * An example: a data directory with relations, a tablespace and two links *)
Definition c65Tid : str := txt "PG_15_202209061".
Definition c65E (n : String.string) (t : btype) (size : Z) (dest : String.string) : binfo := mkBinfo (txt n) t 448 (Some (txt "pg")) None size 1000 (txt dest).
Definition c65F n s := c65E n BFile s "".
Definition c65D n := c65E n BPath 0 "".
Definition c65Tree : list (String.string * list binfo) :=
  [("/d", [c65D "base"; c65F "PG_VERSION" 3; c65F "postmaster.pid" 20; c65D "pg_tblspc"; c65D "pg_wal"; c65D "pg_notify"; c65D "pgsql_tmp1"; c65E "conf" BLink 0 "/etc/pg"; c65E "sock" BSpecial 0 ""; c65E "pipe" BLink 0 "../run/pipe"; c65D "skip"]);
   ("/d/base", [c65D "1"]); ("/d/base/1", [c65F "16384" 8192; c65F "t3_16385" 8192; c65F "pg_internal.init" 100; c65F "PG_VERSION" 3; c65F "16386" 0]);
   ("/d/pg_wal", [c65F "000000010000000000000001" 16777216; c65D "archive_status"]); ("/d/pg_wal/archive_status", [c65F "000000010000000000000001.done" 0]);
   ("/d/pg_notify", [c65F "0000" 8192]); ("/d/pg_tblspc", [c65E "16390" BLink 0 "/ts"]); ("/d/pg_tblspc/16390/PG_15_202209061", [c65D "5"]);
   ("/d/pg_tblspc/16390/PG_15_202209061/5", [c65F "17000" 16384]); ("/d/conf", [c65F "postgresql.conf" 50]); ("/d/skip", [c65F "f" 1])]%string.
Definition c65W : bworld :=
  mkBworld (fun p => match find (fun x => strEqb (txt (fst x)) p) c65Tree with Some (_, l) => l | None => [] end) (fun p => None)
    (fun p => if strEqb p (txt "/d/pipe") then Some (c65E "pipe" BSpecial 0 "") else if strEqb p (txt "/d/conf") then Some (c65D "conf")
      else if strEqb p (txt "/d/pg_tblspc/16390/PG_15_202209061") then Some (c65D "x") else None).
Definition c65O : bopts := mkBopts 150000 c65Tid true true true true 2000 [(16384, 3); (1024, 2)] [(500, 4)] [] (excludeSingle [txt "none"]) (excludeContent [txt "skip/"]) None.
Definition c65R := manifestBuild 10 c65W c65O (txt "/d") (c65D "d").
Example C65_nontrivial :
  match c65R with
  | Ok m => map bfName (bmFiles m) = map txt ["pg_data/PG_VERSION"; "pg_data/base/1/16384"; "pg_data/base/1/16386"; "pg_data/base/1/PG_VERSION"; "pg_data/conf/postgresql.conf"; "pg_tblspc/16390/PG_15_202209061/5/17000"]%string /\
      map (fun f => (bfZero f, bfBlock f, bfBlockChecksum f, bfChecksumPage f)) (bmFiles m) = [(false, 0, 6, false); (false, 8, 6, true); (true, 0, 0, true); (false, 0, 6, false); (false, 0, 6, false); (false, 12, 6, true)] /\
      map mpName (bmPaths m) = map txt ["pg_data"; "pg_data/base"; "pg_data/base/1"; "pg_data/conf"; "pg_data/pg_notify"; "pg_data/pg_tblspc"; "pg_data/pg_wal"; "pg_data/pg_wal/archive_status"; "pg_data/skip";
        "pg_tblspc"; "pg_tblspc/16390"; "pg_tblspc/16390/PG_15_202209061"; "pg_tblspc/16390/PG_15_202209061/5"]%string /\
      map mlName (bmLinks m) = map txt ["pg_data/conf"; "pg_data/pg_tblspc/16390"; "pg_data/pipe"]%string /\
      map (fun t => (mtName t, mtPath t, mtTablespaceName t)) (bmTargets m) = [(txt "pg_data", txt "/d", None); (txt "pg_data/conf", txt "/etc/pg", None); (txt "pg_data/pipe", txt "../run", None);
        (txt "pg_tblspc/16390", txt "/ts", Some (txt "ts16390"))]
  | _ => False
  end /\ manifestBuild 3 c65W c65O (txt "/d") (c65D "d") = UB.
Proof. vm_compute. auto 10. Qed.

(** A link to something that is left out is stored as a link to a file although there is no such file in the backup. *)
Theorem C65_link_without_file_refuted : exists m t, c65R = Ok m /\ In t (bmTargets m) /\ mtName t = txt "pg_data/pipe" /\ mtFile t = Some (txt "pipe") /\ forall f, In f (bmFiles m) -> bfName f <> mtName t.
Proof.
  assert (H : match c65R with
    | Ok m => match find (fun t => strEqb (mtName t) (txt "pg_data/pipe")) (bmTargets m) with
              | Some t => mtFile t = Some (txt "pipe") /\ forallb (fun f => negb (strEqb (bfName f) (txt "pg_data/pipe"))) (bmFiles m) = true
              | None => False end
    | _ => False end) by (vm_compute; auto).
  destruct c65R as [m | |]; try contradiction. destruct (find _ _) as [t |] eqn:E; try contradiction. destruct H as [H1 H2]. apply find_some in E. destruct E as [HI HN]. apply strEqb_eq in HN.
  exists m, t. split; [reflexivity|]. split; [exact HI|]. split; [exact HN|]. split; [exact H1|]. intros f Hf F. rewrite forallb_forall in H2. specialize (H2 f Hf). rewrite F, HN, strEqb_refl in H2. discriminate.
Qed.
Print Assumptions C65_link_without_file_refuted.
(** The name of the cache is not compared to its end: a file that is not the cache of a server process is left out of the backup. *)
Theorem C65_cache_name_refuted : exists n, internalInit n = Ok true /\ n <> txt "pg_internal.init" /\ ~ exists d, (forall c, In c d -> 48 <= c <= 57) /\ n = txt "pg_internal.init." ++ d.
Proof.
  exists (txt "pg_internal.init_old.1.sql"). split; [vm_compute; reflexivity|]. split; [discriminate|]. intros (d & _ & E). vm_compute in E. discriminate.
Qed.
Print Assumptions C65_cache_name_refuted.
