(** The jobs for WAL and the results of an archive id. *)
From Coq Require Import String Sorting.Sorted Sorting.Permutation.
From Verif Require Import Base Str ConvertModel NumModel LsnModel LsnProof RegNameModel VerifyModel VerifySpec VerifyProof.
Open Scope Z_scope.
Open Scope list_scope.

Section Arch.
Variables (w : vworld) (o : option (option (str * str))) (ids0 : list str).
Notation listed := (listed w o).
Notation walFiles := (walFiles w o).
Hypothesis Hids : NoDup ids0.
Hypothesis Hpaths : forall id, In id ids0 -> NoDup (vwPaths w id) /\ forall p, In p (vwPaths w id) -> walPathOk p (vwFiles w id p).
Hypothesis Hsize : forall f n, vwWalSize w f = Ok n -> n <> 0.

Lemma nodup_app_l {A} (a b : list A) : NoDup (a ++ b) -> NoDup a.
Proof. induction a as [| x a IH]; intros H; [constructor|]. inversion H as [| ? ? N1 N2]; subst. constructor; [intros F; apply N1, in_or_app; now left | exact (IH N2)]. Qed.
Lemma path_ok id p : In (id, p) (walPaths w ids0) -> walPathOk p (listed id p).
Proof.
  intros H. apply in_flat_map in H. destruct H as (x & Hx & H). apply in_map_iff in H. destruct H as (q & E & Hq). injection E as -> ->. apply (proj1 (strLstSortAsc_in _ _)) in Hq.
  intros f Hf. apply (proj2 (Hpaths id Hx) p Hq). apply filter_In in Hf. destruct Hf as [Hf _]. exact (proj1 (strLstSortAsc_in _ _) Hf).
Qed.
Lemma paths_nodup : NoDup (walPaths w ids0).
Proof.
  clear Hsize. unfold walPaths. induction ids0 as [| id r IH]; cbn [flat_map]; [constructor|]. inversion Hids as [| ? ? N1 N2]; subst.
  assert (X : NoDup (flat_map (fun id => map (pair id) (strLstSortAsc (vwPaths w id))) r)) by (apply IH; [exact N2 | intros x Hx; apply Hpaths; now right]). clear IH.
  assert (Y : NoDup (map (pair id) (strLstSortAsc (vwPaths w id)))).
  { apply FinFun.Injective_map_NoDup; [intros a b E; now injection E|]. apply (Permutation_NoDup (Permutation_sym (strLstSortAsc_perm _))). apply Hpaths. now left. }
  revert Y. generalize (strLstSortAsc (vwPaths w id)) as l. induction l as [| p l IHl]; intros Y; cbn [map app]; [exact X|]. inversion Y as [| ? ? Y1 Y2]; subst. constructor; [| exact (IHl Y2)].
  intros F. apply in_app_or in F. destruct F as [F | F]; [exact (Y1 F)|]. apply in_flat_map in F. destruct F as (y & Hy & F). apply in_map_iff in F. destruct F as (z & E & _). injection E as -> _. exact (N1 Hy).
Qed.

(** * The loop over paths *)
Definition rest {A B} (paths : list A) (files : list B) : list A := match files with [] => paths | _ => tl paths end.
Definition curW (paths files : list str) : list (str * str) := match paths with p :: _ => map (pair p) files | [] => [] end.
Inductive loads : varch -> list str -> varch -> list Z -> Prop :=
| LoadsNil a : loads a [] a []
| LoadsCons a p kept a1 e l a2 es : loadPath w o p a = Ok (kept, a1, e) -> loads a1 l a2 es -> loads a (p :: l) a2 (e :: es).
Definition total (l : list Z) : Z := fold_right Z.add 0 l.
Lemma pathLoop_spec id : forall paths files a errors j paths' files' a' errors', vaId a = id -> (files <> [] -> paths <> []) ->
  pathLoop w o paths files a errors = Ok (j, paths', files', a', errors') ->
  exists new es, rest paths files = new ++ rest paths' files' /\ loads a new a' es /\ errors' = errors + total es /\ vaId a' = id /\ (files' <> [] -> paths' <> []) /\
    match j with
    | None => paths' = [] /\ files' = [] /\ curW paths files ++ flat_map (fun p => map (pair p) (walFiles id p)) new = []
    | Some j => exists p f, walJob id p f (vaSize a') = Ok j /\ curW paths files ++ flat_map (fun p => map (pair p) (walFiles id p)) new = (p, f) :: curW paths' files'
    end.
Proof.
  induction paths as [| p ps IH]; intros files a errors j paths' files' a' errors' EI HF; cbn [pathLoop].
  - destruct files; [| now elim HF]. intros H. injection H as <- <- <- <- <-. exists [], []. cbn [total fold_right]. repeat split; [constructor | lia | exact EI | intros F; now elim F].
  - destruct files as [| f fs].
    + destruct (loadPath w o p a) as [((l, a1), e) | |] eqn:EL; cbn [bind]; try discriminate. destruct (load_spec w o id p a l a1 e EI EL) as (K1 & K2 & _). destruct l as [| f fs].
      * intros H. destruct (IH [] a1 (errors + e) j paths' files' a' errors' K2 ltac:(intros F; now elim F) H) as (new & es & I1 & I2 & I3 & I4 & I5 & I6).
        exists (p :: new), (e :: es). split; [cbn [rest app] in *; now rewrite I1|]. split; [econstructor; eauto|]. split; [cbn [total fold_right] in *; unfold total in I3; lia|]. split; [exact I4|]. split; [exact I5|].
        cbn [curW map app flat_map]. rewrite <- K1. cbn [map app]. destruct j as [j |]; [| destruct I6 as (A & B & C); repeat split; auto].
        -- destruct I6 as (p0 & f0 & J1 & J2). exists p0, f0. split; [exact J1|]. destruct ps; exact J2.
        -- destruct ps; exact C.
      * destruct (walJob (vaId a1) p f (vaSize a1)) as [x | |] eqn:EJ; cbn [bind]; try discriminate. intros H. injection H as <- <- <- <- <-. rewrite K2 in EJ. exists [p], [e].
        split; [destruct fs; reflexivity|]. split; [econstructor; [exact EL | constructor]|]. split; [cbn [total fold_right]; lia|]. split; [exact K2|]. split; [destruct fs; [intros F; now elim F | discriminate]|].
        exists p, f. split; [exact EJ|]. cbn [curW map app flat_map]. rewrite <- K1, app_nil_r. cbn [map]. f_equal. destruct fs; [destruct ps|]; reflexivity.
    + cbn [bind]. destruct (walJob (vaId a) p f (vaSize a)) as [x | |] eqn:EJ; cbn [bind]; try discriminate. intros H. injection H as <- <- <- <- <-. rewrite EI in EJ. exists [], [].
      split; [destruct fs; reflexivity|]. split; [constructor|]. split; [cbn [total fold_right]; lia|]. split; [exact EI|]. split; [destruct fs; [intros F; now elim F | discriminate]|].
      exists p, f. split; [exact EJ|]. cbn [curW map app flat_map]. rewrite app_nil_r. f_equal. destruct fs; [destruct ps|]; reflexivity.
Qed.

(** * The result of an archive id as paths are loaded *)
Section Results.
Variable RA : list (str * str * str * res vres).
Lemma bads_other id r b s : badsAre RA id r b -> (forall x, In x RA -> ofId id x = true -> firstn 24 (snd (fst x)) <> s) -> badsAre RA id (r ++ [s]) b.
Proof.
  unfold badsAre. intros H N. replace (filter (fun x => ofId id x && (strLstExists (r ++ [s]) (firstn 24 (snd (fst x))) && failed (snd x))) RA) with
    (filter (fun x => ofId id x && (strLstExists r (firstn 24 (snd (fst x))) && failed (snd x))) RA); [exact H|].
  clear H. induction RA as [| x l IH]; [reflexivity|]. cbn [filter]. rewrite IH by (intros y Hy; apply N; now right). replace (ofId id x && (strLstExists (r ++ [s]) (firstn 24 (snd (fst x))) && failed (snd x)))
    with (ofId id x && (strLstExists r (firstn 24 (snd (fst x))) && failed (snd x))); [reflexivity|].
  destruct (ofId id x) eqn:EO; [| reflexivity]. cbn [andb]. f_equal. specialize (N x (or_introl eq_refl) EO). apply eq_true_iff_eq. rewrite !strLstExists_in, in_app_iff. cbn [In]. intuition congruence.
Qed.
Lemma bads_none id s : (forall x, In x RA -> ofId id x = true -> firstn 24 (snd (fst x)) <> s) -> badsAre RA id [s] [].
Proof.
  intros N. unfold badsAre. rewrite filter_nothing; [constructor|]. intros x Hx. destruct (ofId id x) eqn:EO; [| reflexivity]. cbn [andb]. apply andb_false_iff. left. apply not_true_is_false. rewrite strLstExists_in. cbn [In].
  intros [E | []]. exact (N x Hx EO (eq_sym E)).
Qed.
Lemma runs_empty size size' bad ranges : isRuns size bad [] ranges -> isRuns size' bad [] ranges.
Proof.
  intros (rs & EC & HF & _). destruct rs as [| r rs]; [inversion HF; subst; apply runs_none|]. inversion HF as [| ? x ? ? (_ & (q & ->) & _) H2]; subst. cbn [concat] in EC. destruct q; discriminate.
Qed.
Definition seen (id : str) (P : list str) : Prop := forall x, In x RA -> ofId id x = true -> exists p, In p P /\ In (snd (fst x)) (walFiles id p).
Lemma arch_load P p kept a a1 e : archIs w o RA P a -> loadPath w o p a = Ok (kept, a1, e) -> (forall q, In q (P ++ [p]) -> In (vaId a, q) (walPaths w ids0)) -> ~ In p P -> seen (vaId a) P ->
  archIs w o RA (P ++ [p]) a1 /\ vaId a1 = vaId a /\ dupsAre w o (vaId a) p e.
Proof.
  intros (A1 & A2 & A3 & A4) EL HP HN HS. destruct (load_spec w o (vaId a) p a kept a1 e eq_refl EL) as (K1 & K2 & K3 & K4 & K5 & K6 & K7). split; [| auto]. unfold archIs. rewrite K2. split; [|split; [|split]].
  - rewrite K4, A1, flat_map_app, app_length. cbn [flat_map]. rewrite app_nil_r. lia.
  - congruence.
  - unfold sizeIs, sizeFrom in *. rewrite flat_map_app. cbn [flat_map]. rewrite app_nil_r. destruct (flat_map (fun p => map (pair p) (listed (vaId a) p)) P) as [| (q, f) l].
    + cbn [app]. destruct (listed (vaId a) p) as [| f l]; cbn [map]; [congruence|]. rewrite A3 in K6. exact K6.
    + cbn [app]. pose proof (Hsize _ _ A3) as NZ. destruct (listed (vaId a) p); [congruence|]. destruct (Z.eqb_spec (vaSize a) 0); [contradiction | congruence].
  - rewrite flat_map_app, map_app. cbn [flat_map]. rewrite app_nil_r, <- K1. change (firstn 24) with segOf. apply K7.
    + apply path_ok. apply HP. apply in_or_app. right. now left.
    + apply Forall_forall. intros s Hs. apply in_map_iff in Hs. destruct Hs as (f & <- & Hf). apply in_flat_map in Hf. destruct Hf as (q & Hq & Hf). apply filter_In in Hf.
      apply (path_ok (vaId a) q); [apply HP, in_or_app; now left | exact (proj1 Hf)].
    + intros f Hf.
      assert (N : forall x, In x RA -> ofId (vaId a) x = true -> firstn 24 (snd (fst x)) <> segOf f).
      { intros x Hx HO E. destruct (HS x Hx HO) as (q & Hq & Hg). apply filter_In in Hg. destruct Hg as [Hg _]. rewrite K1 in Hf. apply filter_In in Hf. destruct Hf as [Hf _].
        pose proof (proj2 (path_ok (vaId a) q ltac:(apply HP, in_or_app; now left) _ Hg)) as E1. pose proof (proj2 (path_ok (vaId a) p ltac:(apply HP, in_or_app; right; now left) _ Hf)) as E2.
        assert (X : forall g : str, firstn 16 g = firstn 16 (firstn 24 g)) by (intros g; rewrite firstn_firstn; reflexivity). rewrite X in E1. rewrite X in E2. unfold segOf in E. rewrite E in E1. apply HN. congruence. }
      split; [now apply bads_none | intros r b Hb; now apply bads_other].
    + destruct (Z.eq_dec (vaSize a) (vaSize a1)) as [<- | NE]; [exact A4|]. unfold sizeIs, sizeFrom in *. destruct (flat_map (fun p => map (pair p) (listed (vaId a) p)) P) as [| (q, f) l] eqn:EF.
      * assert (X : flat_map (walFiles (vaId a)) P = []).
        { destruct (flat_map (walFiles (vaId a)) P) as [| f l] eqn:EG; [reflexivity|]. exfalso. assert (F : In f (flat_map (walFiles (vaId a)) P)) by (rewrite EG; now left). apply in_flat_map in F. destruct F as (q & Hq & F). apply filter_In in F.
          assert (G : In (q, f) []) by (rewrite <- EF; apply in_flat_map; exists q; split; [exact Hq | apply in_map, F]). exact G. }
        change (map (firstn 24) (flat_map (walFiles (vaId a)) P)) with (map segOf (flat_map (walFiles (vaId a)) P)) in A4. rewrite X in *. exact (runs_empty _ _ _ _ A4).
      * exfalso. pose proof (Hsize _ _ A3) as NZ. destruct (listed (vaId a) p); [congruence|]. destruct (Z.eqb_spec (vaSize a) 0); congruence.
Qed.
Lemma arch_loads : forall new a a' es P, loads a new a' es -> archIs w o RA P a -> (forall q, In q (P ++ new) -> In (vaId a, q) (walPaths w ids0)) -> NoDup (P ++ new) -> seen (vaId a) P ->
  archIs w o RA (P ++ new) a' /\ vaId a' = vaId a /\ Forall2 (dupsAre w o (vaId a)) new es.
Proof.
  induction new as [| p new IH]; intros a a' es P HL HA HP HN HS; inversion HL as [| ? ? kept a1 e ? ? es1 H1 H2]; subst; [rewrite app_nil_r; repeat split; [exact (proj1 HA) | apply HA | apply HA | apply HA | constructor]|].
  assert (EP : P ++ p :: new = (P ++ [p]) ++ new) by (rewrite <- app_assoc; reflexivity). rewrite EP in *.
  destruct (arch_load P p kept a a1 e HA H1) as (B1 & B2 & B3); [intros q Hq; apply HP, in_or_app; now left | | exact HS|].
  { rewrite <- EP in HN. apply NoDup_remove_2 in HN. intros F. apply HN, in_or_app. now left. }
  destruct (IH a1 a' es1 (P ++ [p]) H2 B1) as (C1 & C2 & C3); [rewrite B2; exact HP | exact HN | rewrite B2; intros x Hx HO; destruct (HS x Hx HO) as (q & Hq & G); exists q; split; [apply in_or_app; now left | exact G]|].
  rewrite B2 in *. split; [exact C1|]. split; [exact C2|]. constructor; assumption.
Qed.
End Results.

(** * The loop over archive ids *)
Definition pathsOf (id : str) (l : list (str * str)) : list str := map snd (filter (fun x => strEqb (fst x) id) l).
Definition known (d : vdata) : bool := match lastOf (vdArch d), vdIds d with Some a, id :: _ => strEqb (vaId a) id | _, _ => false end.
Definition future (d : vdata) : list str := if known d then tl (vdIds d) else vdIds d.
Definition remP (d : vdata) : list (str * str) :=
  match vdIds d with id :: r => if known d then map (pair id) (rest (vdPaths d) (vdFiles d)) ++ walPaths w r else walPaths w (vdIds d) | [] => [] end.
Definition curT (d : vdata) : list (str * str * str) :=
  match vdIds d with id :: _ => if known d then map (fun x => (id, fst x, snd x)) (curW (vdPaths d) (vdFiles d)) else [] | [] => [] end.
Record IA (d : vdata) (DA : list (str * str * str)) (RA : list (str * str * str * res vres)) (loaded : list (str * str)) (es : list Z) : Prop := mkIA {
  ia1 : loaded ++ remP d = walPaths w ids0;
  ia2 : DA ++ curT d = walWork w o loaded;
  ia3 : map vaId (vdArch d) ++ future d = ids0;
  ia4 : if known d then vdPaths d <> [] else vdFiles d = [];
  ia5 : Forall2 (fun x e => dupsAre w o (fst x) (snd x) e) loaded es;
  ia6 : forall a, In a (vdArch d) -> archIs w o RA (pathsOf (vaId a) loaded) a;
  ia7 : forall x, In x RA -> In (fst x) DA;
  ia8 : vdFilter d = o }.

Lemma pathsOf_app id a b : pathsOf id (a ++ b) = pathsOf id a ++ pathsOf id b.
Proof. unfold pathsOf. now rewrite filter_app, map_app. Qed.
Lemma pathsOf_same id l : pathsOf id (map (pair id) l) = l.
Proof. unfold pathsOf. rewrite filter_all; [rewrite map_map, map_id; reflexivity|]. intros x Hx. apply in_map_iff in Hx. destruct Hx as (p & <- & _). apply strEqb_refl. Qed.
Lemma pathsOf_other id id' l : id <> id' -> pathsOf id (map (pair id') l) = [].
Proof. intros N. unfold pathsOf. rewrite filter_nothing; [reflexivity|]. intros x Hx. apply in_map_iff in Hx. destruct Hx as (p & <- & _). apply strEqb_neq. cbn [fst]. congruence. Qed.
Lemma pathsOf_in id l p : In p (pathsOf id l) <-> In (id, p) l.
Proof.
  unfold pathsOf. rewrite in_map_iff. split.
  - intros ((i, q) & <- & H). apply filter_In in H. destruct H as [H E]. apply strEqb_eq in E. cbn [fst] in E. now subst i.
  - intros H. exists (id, p). split; [reflexivity|]. apply filter_In. split; [exact H | apply strEqb_refl].
Qed.
Lemma pathsOf_nodup id l : NoDup l -> NoDup (pathsOf id l).
Proof.
  intros H. induction H as [| (i, p) l N H IH]; [constructor|]. unfold pathsOf. cbn [filter fst]. destruct (strEqb_spec i id) as [-> | NE]; [| exact IH]. cbn [map snd]. constructor; [| exact IH].
  fold (pathsOf id l). rewrite pathsOf_in. exact N.
Qed.
Lemma walWork_app a b : walWork w o (a ++ b) = walWork w o a ++ walWork w o b.
Proof. apply flat_map_app. Qed.
Lemma walPaths_app a b : walPaths w (a ++ b) = walPaths w a ++ walPaths w b.
Proof. apply flat_map_app. Qed.
Lemma walWork_id id l : walWork w o (map (pair id) l) = map (fun x => (id, fst x, snd x)) (flat_map (fun p => map (pair p) (walFiles id p)) l).
Proof.
  unfold walWork. induction l as [| p l IH]; [reflexivity|]. cbn [map flat_map fst snd]. rewrite map_app, map_map, IH. reflexivity.
Qed.
Lemma work_in i p f l : In (i, p, f) (walWork w o l) <-> In (i, p) l /\ In f (walFiles i p).
Proof.
  unfold walWork. rewrite in_flat_map. split.
  - intros ((j, q) & H & E). apply in_map_iff in E. destruct E as (g & E & Hg). cbn [fst snd] in *. injection E as -> -> ->. auto.
  - intros (H & G). exists (i, p). split; [exact H|]. apply in_map_iff. exists f. auto.
Qed.
Lemma ia_seen d DA RA loaded es id : IA d DA RA loaded es -> seen RA id (pathsOf id loaded).
Proof.
  intros H ((( i, p), f), r) Hx HO. cbn [ofId] in HO. apply strEqb_eq in HO. subst i. cbn [fst snd]. pose proof (ia7 _ _ _ _ _ H _ Hx) as D. cbn [fst] in D.
  assert (D2 : In (id, p, f) (walWork w o loaded)) by (rewrite <- (ia2 _ _ _ _ _ H); apply in_or_app; now left). apply work_in in D2. exists p. rewrite pathsOf_in. exact D2.
Qed.
Lemma ia_loaded d DA RA loaded es x : IA d DA RA loaded es -> In x loaded -> In x (walPaths w ids0).
Proof. intros H Hx. rewrite <- (ia1 _ _ _ _ _ H). apply in_or_app. now left. Qed.
Lemma not_known arch r paths files backups man cur now er back fil id : NoDup (map vaId arch ++ r) -> (match lastOf arch with Some a => vaId a = id | None => True end) ->
  known (mkVdata r paths files backups man cur now er arch back fil) = false.
Proof.
  intros N E. unfold known. cbn [vdArch vdIds]. destruct (lastOf arch) as [a |] eqn:EL; [| reflexivity]. destruct r as [| i r]; [reflexivity|]. apply strEqb_neq. intros F.
  destruct (lastOf_some _ _ EL) as (q & ->). rewrite map_app in N. cbn [map] in N. rewrite F, <- app_assoc in N. apply NoDup_remove_2 in N. apply N. apply in_or_app. right. now left.
Qed.
Definition sameBackup (d d' : vdata) : Prop := vdBackups d' = vdBackups d /\ vdMan d' = vdMan d /\ vdCurrent d' = vdCurrent d /\ vdBack d' = vdBack d /\ vdBackupNow d' = vdBackupNow d.

(** Paths of the current archive id *)
Lemma id_step d DA RA loaded es id r q a j paths files a' errors : IA d DA RA loaded es -> known d = true -> vdIds d = id :: r -> vdArch d = q ++ [a] ->
  pathLoop w (vdFilter d) (vdPaths d) (vdFiles d) a (vdErrors d) = Ok (j, paths, files, a', errors) ->
  let d' := mkVdata (match paths with [] => r | _ => id :: r end) paths files (vdBackups d) (vdMan d) (vdCurrent d) (vdBackupNow d) errors (setLast (fun _ => a') (vdArch d)) (vdBack d) (vdFilter d) in
  exists new es', errors = vdErrors d + total es' /\
    match j with
    | None => IA d' DA RA (loaded ++ new) (es ++ es') /\ vdIds d' = r
    | Some j => exists p f, walJob id p f (vaSize a') = Ok j /\ IA d' (DA ++ [(id, p, f)]) RA (loaded ++ new) (es ++ es') /\ sizeIs w o id (pathsOf id (loaded ++ new)) (vaSize a') /\ In (id, p) (loaded ++ new) /\ In f (walFiles id p)
    end.
Proof.
  intros HI HK EI EA EL d'. destruct HI as [i1 i2 i3 i4 i5 i6 i7 i8] eqn:EHI. assert (HIA : IA d DA RA loaded es) by exact HI. clear EHI. rewrite HK in i4.
  assert (EV : vaId a = id). { unfold known in HK. rewrite EA, lastOf_app, EI in HK. now apply strEqb_eq in HK. }
  rewrite i8 in EL. destruct (pathLoop_spec id _ _ _ _ _ _ _ _ _ EV ltac:(intros _; exact i4) EL) as (new & es' & P1 & P2 & P3 & P4 & P5 & P6).
  exists (map (pair id) new), es'. split; [exact P3|].
  assert (ND : NoDup (map vaId (q ++ [a']) ++ r)).
  { rewrite map_app. cbn [map]. rewrite P4, <- EV. replace (map vaId q ++ [vaId a]) with (map vaId (vdArch d)) by (rewrite EA, map_app; reflexivity). unfold future in i3. rewrite HK, EI in i3. cbn [tl] in i3. rewrite i3. exact Hids. }
  assert (R1 : remP d = map (pair id) new ++ map (pair id) (rest paths files) ++ walPaths w r). { unfold remP. rewrite EI, HK, P1, map_app, <- app_assoc. reflexivity. }
  assert (SA : setLast (fun _ => a') (vdArch d) = q ++ [a']) by (rewrite EA; apply setLast_app).
  assert (KD : known d' = match paths with [] => false | _ => true end).
  { destruct paths as [| p0 ps]; unfold d'.
    - apply (not_known _ _ _ _ _ _ _ _ _ _ _ id); rewrite SA; [exact ND | rewrite lastOf_app; exact P4].
    - unfold known. cbn [vdArch vdIds]. rewrite SA, lastOf_app, P4. apply strEqb_refl. }
  assert (FN : paths = [] -> files = []) by (intros ->; destruct files; [reflexivity | now elim P5]).
  assert (R2 : remP d' = map (pair id) (rest paths files) ++ walPaths w r).
  { unfold remP. rewrite KD. unfold d'. cbn [vdIds vdPaths vdFiles]. destruct paths; [rewrite (FN eq_refl); cbn [rest map app]; destruct r; reflexivity | reflexivity]. }
  assert (C2 : curT d' = map (fun x => (id, fst x, snd x)) (curW paths files)).
  { unfold curT. rewrite KD. unfold d'. cbn [vdIds vdPaths vdFiles]. destruct paths; [destruct r; reflexivity | reflexivity]. }
  assert (C1 : curT d = map (fun x => (id, fst x, snd x)) (curW (vdPaths d) (vdFiles d))) by (unfold curT; rewrite EI, HK; reflexivity).
  assert (ALL : forall l, In l (loaded ++ map (pair id) new) -> In l (walPaths w ids0)). { intros l Hl. rewrite <- i1, R1. apply in_app_or in Hl. rewrite !in_app_iff. tauto. }
  assert (NDL : NoDup (loaded ++ map (pair id) new)). { pose proof paths_nodup as N. rewrite <- i1, R1, app_assoc in N. exact (nodup_app_l _ _ N). }
  destruct (arch_loads RA new a a' es' (pathsOf id loaded) P2) as (L1 & L2 & L3).
  { rewrite <- EV. apply i6. rewrite EA. apply in_or_app. right. now left. }
  { intros p Hp. rewrite EV. apply ALL. apply pathsOf_in. rewrite pathsOf_app, pathsOf_same. exact Hp. }
  { pose proof (pathsOf_nodup id _ NDL) as N. rewrite pathsOf_app, pathsOf_same in N. exact N. }
  { rewrite EV. exact (ia_seen _ _ _ _ _ id HIA). }
  assert (IAD : forall DA', DA' ++ curT d' = walWork w o (loaded ++ map (pair id) new) -> (forall x, In x DA -> In x DA') -> IA d' DA' RA (loaded ++ map (pair id) new) (es ++ es')).
  { intros DA' E1 E2. constructor.
    - rewrite R2, <- app_assoc, <- R1. exact i1.
    - exact E1.
    - unfold future. rewrite KD. unfold d'. cbn [vdArch vdIds]. rewrite SA, map_app. cbn [map]. rewrite P4, <- EV. replace (map vaId q ++ [vaId a]) with (map vaId (vdArch d)) by (rewrite EA, map_app; reflexivity).
      unfold future in i3. rewrite HK, EI in i3. cbn [tl] in i3. destruct paths; exact i3.
    - rewrite KD. unfold d'. cbn [vdPaths vdFiles]. destruct paths; [exact (FN eq_refl) | discriminate].
    - apply Forall2_app; [exact i5|]. rewrite EV in L3. clear -L3. induction L3; constructor; [exact H | exact IHL3].
    - unfold d'. cbn [vdArch]. rewrite SA. intros b Hb. apply in_app_or in Hb. destruct Hb as [Hb | [<- | []]].
      + assert (NE : vaId b <> id). { intros E. rewrite map_app in ND. cbn [map] in ND. rewrite P4, <- app_assoc in ND. apply NoDup_remove_2 in ND. apply ND. apply in_or_app. left. rewrite <- E. now apply in_map. }
        rewrite pathsOf_app, (pathsOf_other _ _ _ NE), app_nil_r. apply i6. rewrite EA. apply in_or_app. now left.
      + rewrite P4, pathsOf_app, pathsOf_same. exact L1.
    - intros x Hx. apply E2, i7, Hx.
    - exact i8. }
  destruct j as [j |].
  - destruct P6 as (p & f & J1 & J2). exists p, f. split; [exact J1|].
    assert (W : DA ++ (id, p, f) :: curT d' = walWork w o (loaded ++ map (pair id) new)).
    { rewrite walWork_app, <- i2, <- app_assoc, walWork_id, C1, C2. f_equal. rewrite <- map_app, J2. reflexivity. }
    split; [apply IAD; [rewrite <- app_assoc; exact W | intros x Hx; apply in_or_app; now left]|]. split; [| apply work_in; rewrite <- W; apply in_or_app; right; now left].
    rewrite pathsOf_app, pathsOf_same. destruct L1 as (_ & _ & L1 & _). rewrite P4 in L1. exact L1.
  - destruct P6 as (-> & -> & J). split; [| reflexivity]. apply IAD; [| auto]. rewrite walWork_app, <- i2, <- app_assoc, walWork_id, C1, C2. f_equal. rewrite <- map_app, J. reflexivity.
Qed.

(** A new archive id *)
Lemma id_start d DA RA loaded es id r : IA d DA RA loaded es -> known d = false -> vdIds d = id :: r ->
  let paths := strLstSortAsc (vwPaths w id) in
  let d' := mkVdata (match paths with [] => r | _ => id :: r end) paths (vdFiles d) (vdBackups d) (vdMan d) (vdCurrent d) (vdBackupNow d) (vdErrors d) (vdArch d ++ [mkVarch id 0 0 0 []]) (vdBack d) (vdFilter d) in
  IA d' DA RA loaded es /\ known d' = match paths with [] => false | _ => true end.
Proof.
  intros HI HK EI paths d'. destruct HI as [i1 i2 i3 i4 i5 i6 i7 i8] eqn:EHI. assert (HIA : IA d DA RA loaded es) by exact HI. clear EHI. rewrite HK in i4.
  unfold future in i3. rewrite HK, EI in i3.
  assert (ND : NoDup (map vaId (vdArch d ++ [mkVarch id 0 0 0 []]) ++ r)) by (rewrite map_app, <- app_assoc; cbn [map app vaId]; rewrite i3; exact Hids).
  assert (KD : known d' = match paths with [] => false | _ => true end).
  { destruct paths as [| p0 ps]; unfold d'.
    - apply (not_known _ _ _ _ _ _ _ _ _ _ _ id); [exact ND | rewrite lastOf_app; reflexivity].
    - unfold known. cbn [vdArch vdIds]. rewrite lastOf_app. apply strEqb_refl. }
  split; [| exact KD].
  assert (EL : loaded = walPaths w (map vaId (vdArch d))).
  { apply (app_inv_tail (walPaths w (id :: r))). rewrite <- walPaths_app, i3, <- i1. f_equal. unfold remP. now rewrite HK, EI. }
  assert (NI : pathsOf id loaded = []).
  { destruct (pathsOf id loaded) as [| p l] eqn:E; [reflexivity|]. exfalso. assert (F : In p (pathsOf id loaded)) by (rewrite E; now left). apply pathsOf_in in F. rewrite EL in F. apply in_flat_map in F. destruct F as (x & Hx & F).
    apply in_map_iff in F. destruct F as (y & E2 & _). injection E2 as -> _. rewrite <- i3 in Hids. apply NoDup_remove_2 in Hids. apply Hids, in_or_app. now left. }
  constructor.
  - rewrite <- i1. f_equal. unfold remP. rewrite KD, HK, EI. unfold d'. cbn [vdIds vdPaths vdFiles]. rewrite i4. cbn [rest]. unfold walPaths. cbn [flat_map]. fold paths. destruct paths; [destruct r; reflexivity | reflexivity].
  - rewrite <- i2. f_equal. unfold curT. rewrite KD, HK, EI. unfold d'. cbn [vdIds vdPaths vdFiles]. rewrite i4. destruct paths; [destruct r; reflexivity | reflexivity].
  - unfold future. rewrite KD. unfold d'. cbn [vdArch vdIds]. rewrite map_app, <- app_assoc. cbn [map app vaId]. rewrite <- i3. destruct paths; reflexivity.
  - rewrite KD. unfold d'. cbn [vdPaths vdFiles]. destruct paths; [exact i4 | discriminate].
  - exact i5.
  - unfold d'. cbn [vdArch]. intros a Ha. apply in_app_or in Ha. destruct Ha as [Ha | [<- | []]]; [exact (i6 a Ha)|]. cbn [vaId]. rewrite NI. unfold archIs. cbn [vaTotal vaValid vaSize vaRanges vaId flat_map map length].
    split; [reflexivity|]. split; [| split; [reflexivity | apply runs_none]]. rewrite filter_nothing; [reflexivity|]. intros x Hx. destruct (ofId id x) eqn:EO; [| reflexivity].
    destruct (ia_seen _ _ _ _ _ id HIA x Hx EO) as (p & Hp & _). rewrite NI in Hp. destruct Hp.
  - exact i7.
  - exact i8.
Qed.
Lemma idLoop_spec : forall ids d DA RA loaded es j d', IA d DA RA loaded es -> vdIds d = ids -> idLoop w ids d = Ok (j, d') ->
  exists new es', vdErrors d' = vdErrors d + total es' /\ sameBackup d d' /\
    match j with
    | None => IA d' DA RA (loaded ++ new) (es ++ es') /\ vdIds d' = []
    | Some j => exists id p f n, walJob id p f n = Ok j /\ IA d' (DA ++ [(id, p, f)]) RA (loaded ++ new) (es ++ es') /\ sizeIs w o id (pathsOf id (loaded ++ new)) n /\ In (id, p) (loaded ++ new) /\ In f (walFiles id p)
    end.
Proof.
  induction ids as [| id r IH]; intros d DA RA loaded es j d' HI EI; cbn [idLoop].
  - intros H. injection H as <- <-. exists [], []. cbn [total fold_right vdErrors vdIds]. rewrite !app_nil_r. split; [lia|]. split; [repeat split|]. split; [| reflexivity].
    destruct d as [x1 x2 x3 x4 x5 x6 x7 x8 x9 x10 x11]. cbn [vdIds] in EI. subst x1. exact HI.
  - assert (KE : match lastOf (vdArch d) with Some a => strEqb (vaId a) id | None => false end = known d) by (unfold known; rewrite EI; reflexivity). rewrite KE.
    assert (MAIN : forall d, IA d DA RA loaded es -> known d = true -> vdIds d = id :: r ->
      match vdPaths d, lastOf (vdArch d) with
      | _ :: _, Some a =>
          let* x := pathLoop w (vdFilter d) (vdPaths d) (vdFiles d) a (vdErrors d) in
          let '(j, paths, files, a, errors) := x in
          let d := mkVdata (match paths with [] => r | _ => id :: r end) paths files (vdBackups d) (vdMan d) (vdCurrent d) (vdBackupNow d) errors (setLast (fun _ => a) (vdArch d)) (vdBack d) (vdFilter d) in
          match j with Some j => Ok (Some j, d) | None => idLoop w r d end
      | _, _ => idLoop w r (mkVdata r (vdPaths d) (vdFiles d) (vdBackups d) (vdMan d) (vdCurrent d) (vdBackupNow d) (vdErrors d) (vdArch d) (vdBack d) (vdFilter d))
      end = Ok (j, d') ->
      exists new es', vdErrors d' = vdErrors d + total es' /\ sameBackup d d' /\
        match j with
        | None => IA d' DA RA (loaded ++ new) (es ++ es') /\ vdIds d' = []
        | Some j => exists id p f n, walJob id p f n = Ok j /\ IA d' (DA ++ [(id, p, f)]) RA (loaded ++ new) (es ++ es') /\ sizeIs w o id (pathsOf id (loaded ++ new)) n /\ In (id, p) (loaded ++ new) /\ In f (walFiles id p)
        end).
    { clear d HI EI KE. intros d HI HK EI. pose proof (ia4 _ _ _ _ _ HI) as i4. rewrite HK in i4. destruct (vdPaths d) as [| p0 ps] eqn:EP; [now elim i4|].
      destruct (lastOf (vdArch d)) as [a |] eqn:EL; [| unfold known in HK; now rewrite EL in HK]. destruct (lastOf_some _ _ EL) as (q & EA).
      destruct (pathLoop _ _ _ _ _ _) as [((((j0, paths), files), a'), errors) | |] eqn:EW; cbn [bind]; try discriminate. rewrite <- EP in EW.
      destruct (id_step d DA RA loaded es id r q a j0 paths files a' errors HI HK EI EA EW) as (new & es' & E1 & E2). destruct j0 as [j0 |].
      - intros H. injection H as <- <-. exists new, es'. split; [exact E1|]. split; [repeat split|]. destruct E2 as (p & f & E2). exists id, p, f, (vaSize a'). exact E2.
      - destruct E2 as (E2 & E3). intros H. destruct (IH _ _ _ _ _ _ _ E2 E3 H) as (new2 & es2 & F1 & F2 & F3). exists (new ++ new2), (es' ++ es2). rewrite !app_assoc. split; [| split; [exact F2 | exact F3]].
        rewrite F1. cbn [vdErrors]. rewrite E1. unfold total. rewrite fold_right_app. clear. induction es' as [| x l IHl]; cbn [fold_right]; lia. }
    destruct (known d) eqn:HK; [now apply MAIN|].
    destruct (id_start d DA RA loaded es id r HI HK EI) as (S1 & S2). cbn zeta in S1, S2. rewrite lastOf_app.
    destruct (strLstSortAsc (vwPaths w id)) as [| p0 ps] eqn:EP.
    + intros H. destruct (IH _ _ _ _ _ _ _ S1 eq_refl H) as (new & es' & F). exists new, es'. exact F.
    + intros H. apply (MAIN _ S1 S2 eq_refl). cbn [vdPaths vdArch vdFilter vdFiles vdErrors vdBackups vdMan vdCurrent vdBackupNow vdBack]. rewrite lastOf_app. exact H.
Qed.
End Arch.
