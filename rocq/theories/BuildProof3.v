(** Names in the manifest differ, and the depth of the recursion does not matter. *)
From Coq Require Import String.
From Verif Require Import Base Str NumModel ManifestPackModel ManifestModel RegModel RegSpec RegNameModel LinkCheckModel SelectSpec SelectProof UnloggedModel UnloggedSpec UnloggedProof
  BuildModel BuildSpec BuildProof BuildProof2.
Open Scope Z_scope.
Open Scope list_scope.

(** * Depth *)
Section Depth.
Variables (w : bworld) (o : bopts) (dbExp tempExp : re).
Definition agree {A} (r r' : res A) : Prop := r <> UB -> r' = r.
Lemma agree_bind {A B} (x : res A) (f g : A -> res B) : (forall a, x = Ok a -> agree (f a) (g a)) -> agree (bind x f) (bind x g).
Proof. intros H. destruct x as [a | e |]; cbn [bind]; [exact (H a eq_refl) | intros _; reflexivity | intros F; now elim F]. Qed.
Lemma list_agree (one two : binfo -> bman -> res bman) : (forall i m, agree (one i m) (two i m)) -> forall l m, agree (buildList one l m) (buildList two l m).
Proof.
  intros H. induction l as [| i l IH]; intros m; cbn [buildList]; [intros _; reflexivity|]. specialize (H i m). destruct (one i m) as [m1 | e |]; cbn [bind].
  - rewrite (H ltac:(discriminate)). cbn [bind]. apply IH.
  - intros _. rewrite (H ltac:(discriminate)). reflexivity.
  - intros F. now elim F.
Qed.
Lemma link_agree one two parent pg db i m : (forall a b c d e, agree (one a b c d e) (two a b c d e)) -> agree (buildLink w o one parent pg db i m) (buildLink w o two parent pg db i m).
Proof.
  intros H. unfold buildLink. apply agree_bind. intros abs _. cbv zeta. destruct (match bwInfo w abs with Some _ => _ | None => false end); [intros _; reflexivity|].
  apply agree_bind. intros [[[[[[m1 tn] id] ts] p'] pg'] ln] _. apply agree_bind. intros t _. apply agree_bind. intros c _.
  destruct (bwFollow w (sub pg' ln)); [apply H | intros _; reflexivity].
Qed.
Lemma deeper depth : forall parent pg db i m, agree (buildInfo w o dbExp tempExp depth parent pg db i m) (buildInfo w o dbExp tempExp (S depth) parent pg db i m).
Proof.
  induction depth as [| depth IH]; intros parent pg db i m; [intros F; now elim F|].
  change (buildInfo w o dbExp tempExp (S (S depth)) parent pg db i m) with
    (let name := sub parent (biName i) in
      if skipEntry o name i then Ok m
      else
        match biType i with
        | BPath =>
            if strEqb parent sTblspc then Err EOptionInvalidValue
            else
              let m := addPath m (mkMpath name (biMode i) (biUser i) (biGroup i)) in
              if skipContent o parent name i then Ok m
              else buildList (buildInfo w o dbExp tempExp (S depth) name (sub pg (biName i)) (regExpMatch dbExp name)) (bwList w (sub pg (biName i))) m
        | BFile =>
            if strEqb parent sTblspc then Err EOptionInvalidValue
            else
              let* skip := skipFile o tempExp parent db i in
              if skip then Ok m else Ok (addFile m (newFile o name db i))
        | BLink => buildLink w o (buildInfo w o dbExp tempExp (S depth)) parent pg db i m
        | BSpecial => Ok m
        end).
  cbn [buildInfo]. cbv zeta. destruct (skipEntry o (sub parent (biName i)) i); [intros _; reflexivity|]. destruct (biType i); try (intros _; reflexivity).
  - destruct (strEqb parent sTblspc); [intros _; reflexivity|]. destruct (skipContent o parent (sub parent (biName i)) i); [intros _; reflexivity|].
    apply list_agree. intros j m1. apply IH.
  - apply link_agree. intros a b c d e. apply IH.
Qed.
Lemma depths d d' parent pg db i m : (d <= d')%nat -> agree (buildInfo w o dbExp tempExp d parent pg db i m) (buildInfo w o dbExp tempExp d' parent pg db i m).
Proof.
  intros H. induction H as [| d' H IH]; [intros _; reflexivity|]. intros N. rewrite <- (IH N). apply deeper. rewrite (IH N). exact N.
Qed.
End Depth.

(** * Names *)
Definition noSlashIn (s : str) : Prop := ~ In 47 s.
Definition within (a b : str) : Prop := b = a \/ begins b (slash a []).
Definition strictly (a b : str) : Prop := begins b (slash a []).
Definition real (s : str) : str := if strBeginsWith s (slash sSpc []) then slash sData s else s.
Definition rooted (p : str) : Prop := p = sData \/ begins p (slash sData []) \/ begins p (slash sSpc []).
Lemma begins_slash p s x : begins p x -> begins (slash p s) x.
Proof. intros (r & ->). exists (r ++ txt "/" ++ s). unfold slash. rewrite <- !app_assoc. reflexivity. Qed.
Lemma data_not_spc s : ~ begins (sData ++ s) (slash sSpc []).
Proof. intros (r & E). vm_compute in E. discriminate. Qed.
Lemma real_data s : real (sData ++ s) = sData ++ s.
Proof. unfold real. destruct (strBeginsWith (sData ++ s) (slash sSpc [])) eqn:E; [| reflexivity]. apply begins_iff in E. elim (data_not_spc _ E). Qed.
Lemma real_spc s : real (slash sSpc s) = slash sData (slash sSpc s).
Proof.
  unfold real. replace (strBeginsWith (slash sSpc s) (slash sSpc [])) with true; [reflexivity|]. symmetry. apply begins_iff. exists s. reflexivity.
Qed.
Lemma real_slash p s : rooted p -> real (slash p s) = slash (real p) s.
Proof.
  intros [-> | [(r & ->) | (r & ->)]].
  - change (slash sData s) with (sData ++ txt "/" ++ s). rewrite real_data. rewrite <- (app_nil_r sData) at 2. rewrite real_data. rewrite app_nil_r. reflexivity.
  - change (slash (slash sData [] ++ r) s) with (sData ++ (txt "/" ++ r) ++ txt "/" ++ s). change (slash sData [] ++ r) with (sData ++ (txt "/" ++ r)). rewrite !real_data. reflexivity.
  - change (slash (slash sSpc [] ++ r) s) with (slash sSpc (slash r s)). change (slash sSpc [] ++ r) with (slash sSpc r). rewrite !real_spc. reflexivity.
Qed.
Lemma rooted_slash p s : rooted p -> rooted (slash p s).
Proof.
  intros [-> | [H | H]]; [right; left; exists s; reflexivity | right; left; apply begins_slash, H | right; right; apply begins_slash, H].
Qed.
Lemma slash_more a b : strictly a (slash a b).
Proof. exists b. unfold slash. rewrite <- !app_assoc. reflexivity. Qed.
Lemma within_trans a b c : within a b -> within b c -> within a c.
Proof.
  intros [-> | (r & ->)] [-> | (s & ->)]; [now left | right; now exists s | right; now exists r | right]. exists (r ++ txt "/" ++ s). unfold slash. rewrite <- !app_assoc. reflexivity.
Qed.
Lemma strictly_within a b c : strictly a b -> within b c -> strictly a c.
Proof. intros (r & ->) [-> | (s & ->)]; [now exists r|]. exists (r ++ txt "/" ++ s). unfold slash. rewrite <- !app_assoc. reflexivity. Qed.
Lemma strictly_ne a : ~ strictly a a.
Proof. intros (r & E). unfold slash in E. apply (f_equal (@length Z)) in E. rewrite !app_length in E. change (length (txt "/")) with 1%nat in E. cbn [length] in E. lia. Qed.
Lemma siblings p a b x : noSlashIn a -> noSlashIn b -> within (slash p a) x -> within (slash p b) x -> a = b.
Proof.
  assert (K : forall a b r s, noSlashIn a -> noSlashIn b -> a ++ r = b ++ s -> (r = [] \/ exists r', r = 47 :: r') -> (s = [] \/ exists s', s = 47 :: s') -> a = b).
  { clear. induction a as [| c a IH]; intros b r s Ha Hb E Hr Hs; destruct b as [| d b]; [reflexivity | | |]; cbn [app] in E.
    - exfalso. destruct Hr as [-> | (r' & ->)]; [discriminate|]. injection E as <- _. apply Hb. now left.
    - exfalso. destruct Hs as [-> | (s' & ->)]; [discriminate|]. injection E as -> _. apply Ha. now left.
    - injection E as <- E. f_equal. apply (IH b r s); auto; intros F; [apply Ha | apply Hb]; now right. }
  intros Ha Hb HX HY.
  assert (EX : forall a, within (slash p a) x -> exists r, x = p ++ txt "/" ++ a ++ r /\ (r = [] \/ exists r', r = 47 :: r')).
  { clear. intros a [-> | (r & ->)]; [exists []; split; [unfold slash; rewrite app_nil_r; reflexivity | now left]|]. exists (47 :: r). split; [unfold slash; rewrite <- !app_assoc; reflexivity | right; eauto]. }
  destruct (EX a HX) as (r & -> & Hr), (EX b HY) as (s & E & Hs). apply app_inv_head in E. apply app_inv_head in E. exact (K a b r s Ha Hb E Hr Hs).
Qed.

Section Zone.
Variables (w : bworld) (o : bopts).
Lemma step_zone n c : rooted (nParent n) -> step w o n c -> rooted (nParent c) /\ within (real (nName n)) (real (nName c)) /\ (ofType BPath n -> strictly (real (nName n)) (real (nName c))).
Proof.
  intros HR H. destruct H as [b j A _ _ _ _ | j (A & _) _ _ | j ((A & _) & B) _]; cbn [nParent nName nInfo biName].
  - pose proof (rooted_slash _ (biName (nInfo n)) HR) as HR2. fold (nName n) in HR2. split; [exact HR2|]. change (nName (mkNode (nName n) (slash (nPath n) (biName (nInfo n))) b j)) with (slash (nName n) (biName j)).
    rewrite (real_slash _ _ HR2). split; [right|intros _]; apply slash_more.
  - split; [exact HR|]. split; [left; reflexivity | intros F; unfold ofType in *; congruence].
  - split; [right; right; exists (biName (nInfo n)); reflexivity|].
    assert (E : strictly (real (nName n)) (real (slash (slash sSpc (biName (nInfo n))) (boTid o)))).
    { unfold nName. rewrite B. change (slash (slash sData sSpc) (biName (nInfo n))) with (sData ++ txt "/" ++ slash sSpc (biName (nInfo n))). rewrite real_data.
      change (slash (slash sSpc (biName (nInfo n))) (boTid o)) with (slash sSpc (slash (biName (nInfo n)) (boTid o))). rewrite real_spc. exists (boTid o). unfold slash. rewrite <- !app_assoc. reflexivity. }
    split; [right; exact E | intros _; exact E].
Qed.
Lemma below_zone n x : below w o n x -> rooted (nParent n) -> rooted (nParent x) /\ within (real (nName n)) (real (nName x)).
Proof.
  intros H. induction H as [n | a b c H1 H2 IH]; intros HR; [split; [exact HR | now left]|]. destruct (step_zone a b HR H1) as (R1 & W1 & _). destruct (IH R1) as (R2 & W2). split; [exact R2 | exact (within_trans _ _ _ W1 W2)].
Qed.
Lemma real_node n : rooted (nParent n) -> real (nName n) = slash (real (nParent n)) (biName (nInfo n)).
Proof. apply real_slash. Qed.
Lemma target_real n t : targetNode w o n t -> real (mtName t) = real (nName n).
Proof.
  intros (_ & _ & [(A & B & _) | (_ & B & _)] & _); [| now rewrite B]. rewrite B, real_spc. unfold nName. rewrite A.
  change (slash (slash sData sSpc) (biName (nInfo n))) with (sData ++ txt "/" ++ slash sSpc (biName (nInfo n))). rewrite real_data. reflexivity.
Qed.
End Zone.

(** Storage as it is: names of a directory differ and have no slash, and what a link leads to is no link *)
Definition worldWf (w : bworld) : Prop :=
  (forall p, NoDup (map biName (bwList w p)) /\ forall i, In i (bwList w p) -> noSlashIn (biName i)) /\ (forall p j, bwFollow w p = Some j -> biType j <> BLink).

Definition nFile (f : bfile) : str := real (bfName f).
Definition nLink (k : mlink) : str := real (mlName k).
Definition nTarget (t : mtarget) : str := real (mtName t).
Definition fresh {A} (name : A -> str) (l l' : list A) (Z : str -> Prop) : Prop := exists x, l' = l ++ x /\ NoDup (map name x) /\ forall a, In a x -> Z (name a).
Lemma fresh_none {A} (name : A -> str) l Z : fresh name l l Z.
Proof. exists []. split; [now rewrite app_nil_r|]. split; [constructor | intros a []]. Qed.
Lemma fresh_one {A} (name : A -> str) l a (Z : str -> Prop) : Z (name a) -> fresh name l (l ++ [a]) Z.
Proof. intros H. exists [a]. split; [reflexivity|]. split; [constructor; [intros [] | constructor] | intros b [<- | []]; exact H]. Qed.
Lemma fresh_seq {A} (name : A -> str) l l1 l2 (Z1 Z2 : str -> Prop) : (forall s, Z1 s -> Z2 s -> False) -> fresh name l l1 Z1 -> fresh name l1 l2 Z2 -> fresh name l l2 (fun s => Z1 s \/ Z2 s).
Proof.
  intros HD (x & -> & N1 & H1) (y & -> & N2 & H2). exists (x ++ y). split; [now rewrite app_assoc|]. split.
  - rewrite map_app. clear - HD N1 N2 H1 H2. induction x as [| a x IH]; cbn [map app]; [exact N2|]. inversion N1 as [| ? ? NI ND]; subst. constructor.
    + rewrite in_app_iff. intros [F | F]; [exact (NI F)|]. apply in_map_iff in F. destruct F as (b & E & Hb). apply (HD (name a)); [apply H1; now left|]. rewrite <- E. exact (H2 b Hb).
    + apply IH; [exact ND | intros c Hc; apply H1; now right].
  - intros a Ha. apply in_app_or in Ha. destruct Ha as [Ha | Ha]; [left; exact (H1 a Ha) | right; exact (H2 a Ha)].
Qed.
Lemma fresh_ext {A} (name : A -> str) l l' (Z Z' : str -> Prop) : (forall s, Z s -> Z' s) -> fresh name l l' Z -> fresh name l l' Z'.
Proof. intros H (x & E & N & HZ). exists x. split; [exact E|]. split; [exact N|]. intros a Ha. exact (H _ (HZ a Ha)). Qed.

Section Fresh.
Variables (w : bworld) (o : bopts) (dbExp tempExp : re) (base : mpath) (t0 : mtarget).
Hypothesis HW : worldWf w.
Hypothesis HDB : forall s, regExpMatch dbExp s = true <-> isDbPath (boTid o) s.
Hypothesis HTMP : forall s, regExpMatch tempExp s = true <-> tempRelation s.
Hypothesis HBASE : mpName base = pgData.
Hypothesis HT0 : mtName t0 = pgData.
Definition freshAll (m m' : bman) (ZF ZL : str -> Prop) : Prop :=
  fresh nFile (bmFiles m) (bmFiles m') ZF /\ fresh nLink (bmLinks m) (bmLinks m') ZL /\ fresh nTarget (bmTargets m) (bmTargets m') ZL.
Lemma all_none m ZF ZL : freshAll m m ZF ZL.
Proof. repeat split; apply fresh_none. Qed.
Lemma all_ext m m' (ZF ZF' ZL ZL' : str -> Prop) : (forall s, ZF s -> ZF' s) -> (forall s, ZL s -> ZL' s) -> freshAll m m' ZF ZL -> freshAll m m' ZF' ZL'.
Proof. intros H1 H2 (A & B & C). repeat split; eapply fresh_ext; eauto. Qed.
Lemma all_seq m m1 m2 (ZF1 ZL1 ZF2 ZL2 : str -> Prop) : (forall s, ZF1 s -> ZF2 s -> False) -> (forall s, ZL1 s -> ZL2 s -> False) ->
  freshAll m m1 ZF1 ZL1 -> freshAll m1 m2 ZF2 ZL2 -> freshAll m m2 (fun s => ZF1 s \/ ZF2 s) (fun s => ZL1 s \/ ZL2 s).
Proof. intros D1 D2 (A & B & C) (A' & B' & C'). repeat split; eapply fresh_seq; eauto. Qed.

Definition zone (n : node) (s : str) : Prop := within (real (nName n)) s.
Definition zoneL (n : node) (s : str) : Prop := zone n s /\ (ofType BLink n \/ strictly (real (nName n)) s).
Lemma list_fresh (one : binfo -> bman -> res bman) (mk : binfo -> node) parent :
  (forall i, nName (mk i) = slash parent (biName i)) -> rooted parent ->
  (forall i m m', Inv base t0 m -> hasPath m parent -> one i m = Ok m' -> grown w o base t0 m m' (below w o (mk i))) ->
  (forall i m m', Inv base t0 m -> hasPath m parent -> one i m = Ok m' -> freshAll m m' (zone (mk i)) (zone (mk i))) ->
  forall l m m', NoDup (map biName l) -> (forall i, In i l -> noSlashIn (biName i)) -> Inv base t0 m -> hasPath m parent -> buildList one l m = Ok m' ->
  freshAll m m' (fun s => exists i, In i l /\ zone (mk i) s) (fun s => exists i, In i l /\ zone (mk i) s).
Proof.
  intros HN HR HG HF. induction l as [| i l IH]; intros m m' ND NS HI HP; cbn [buildList].
  - intros E. injection E as <-. apply all_none.
  - destruct (one i m) as [m1 | e |] eqn:E1; cbn [bind]; try discriminate. intros E2. pose proof (HG i m m1 HI HP E1) as G1. pose proof (HF i m m1 HI HP E1) as F1.
    inversion ND as [| ? ? ND1 ND2]; subst.
    pose proof (IH m1 m' ND2 (fun j Hj => NS j (or_intror Hj)) (grown_inv _ _ _ _ _ _ _ G1 HI) (grown_has _ _ _ _ _ _ _ _ G1 HP) E2) as F2.
    assert (D : forall s, zone (mk i) s -> (exists j, In j l /\ zone (mk j) s) -> False).
    { intros s Z1 (j & Hj & Z2). apply ND1. unfold zone in Z1, Z2. rewrite HN, (real_slash _ (biName i) HR) in Z1. rewrite HN, (real_slash _ (biName j) HR) in Z2.
      rewrite (siblings _ _ _ s (NS i (or_introl eq_refl)) (NS j (or_intror Hj)) Z1 Z2). now apply in_map. }
    eapply all_ext; [| | exact (all_seq _ _ _ _ _ _ _ D D F1 F2)]; intros s [H | (j & H & Z)]; [exists i; split; [now left | exact H] | exists j; split; [now right | exact Z] | exists i; split; [now left | exact H] | exists j; split; [now right | exact Z]].
Qed.
Lemma info_fresh depth : forall n m m', rooted (nParent n) -> Inv base t0 m -> hasPath m (nParent n) ->
  buildInfo w o dbExp tempExp depth (nParent n) (nPath n) (nDb n) (nInfo n) m = Ok m' -> freshAll m m' (zone n) (zoneL n).
Proof.
  induction depth as [| depth IH]; intros n m m' HR HI HP; cbn [buildInfo]; [discriminate|]. cbv zeta.
  change (sub (nParent n) (biName (nInfo n))) with (nName n). destruct (skipEntry o (nName n) (nInfo n)) eqn:EH; [intros E; injection E as <-; apply all_none|].
  assert (HH : ~ hidden o n) by (rewrite <- skipEntry_iff; congruence). clear EH. destruct (biType (nInfo n)) eqn:ET.
  - assert (HT : ofType BPath n) by exact ET. destruct (strEqb (nParent n) sTblspc) eqn:ES; [discriminate|]. assert (HS : ~ inSpc n) by (rewrite <- inSpc_iff; congruence).
    pose proof (grown_path w o base t0 m n HT HH HS) as G1. destruct (skipContent o (nParent n) (nName n) (nInfo n)) eqn:EC.
    + intros E. injection E as <-. repeat split; apply fresh_none.
    + intros E. set (mk := mkNode (nName n) (slash (nPath n) (biName (nInfo n))) (dbSub dbExp n)).
      assert (HR2 : rooted (nName n)) by apply (rooted_slash _ _ HR).
      destruct (proj1 HW (slash (nPath n) (biName (nInfo n)))) as [ND NS].
      assert (HP1 : hasPath (addPath m (mkMpath (nName n) (biMode (nInfo n)) (biUser (nInfo n)) (biGroup (nInfo n)))) (nName n)).
      { exists (mkMpath (nName n) (biMode (nInfo n)) (biUser (nInfo n)) (biGroup (nInfo n))). split; [cbn [addPath bmPaths]; apply in_or_app; right; now left | reflexivity]. }
      pose proof (list_fresh _ mk (nName n) (fun i => eq_refl) HR2 (fun i m1 m2 I1 P1 E1 => info_ok w o dbExp tempExp base t0 HDB HTMP HBASE HT0 depth (mk i) m1 m2 I1 P1 E1)
        (fun i m1 m2 I1 P1 E1 => all_ext _ _ _ _ _ _ (fun s H => H) (fun s H => proj1 H) (IH (mk i) m1 m2 HR2 I1 P1 E1)) _ _ m' ND NS (grown_inv _ _ _ _ _ _ _ G1 HI) HP1 E) as F.
      assert (ZZ : forall s, (exists i, In i (bwList w (sub (nPath n) (biName (nInfo n)))) /\ zone (mk i) s) -> strictly (real (nName n)) s).
      { intros s (i & _ & Z). unfold zone in Z. change (nName (mk i)) with (slash (nName n) (biName i)) in Z. rewrite (real_slash _ _ HR2) in Z. exact (strictly_within _ _ _ (slash_more _ _) Z). }
      eapply all_ext; [| | exact F]; intros s H; [right; exact (ZZ s H) | split; [right; exact (ZZ s H) | right; exact (ZZ s H)]].
  - destruct (strEqb (nParent n) sTblspc); [discriminate|]. destruct (skipFile_iff o tempExp n HTMP) as (b & -> & HB). cbn [bind]. destruct b; intros E; injection E as <-; [apply all_none|].
    repeat split; cbn [addFile bmFiles bmLinks bmTargets]; try apply fresh_none. apply fresh_one. left. reflexivity.
  - assert (HT : ofType BLink n) by exact ET. assert (HL : linkNode o n) by (split; assumption). intros E.
    destruct (link_cases w o base t0 HBASE HT0 n m (buildInfo w o dbExp tempExp depth) HI HP HL) as [(e & F & _) | [F | (m1 & c & G1 & HP1 & HS & HU & F & EF & k & t & EK & ETG)]]; rewrite F in E; try discriminate.
    destruct (step_zone w o n c HR HS) as (RC & WC & _).
    assert (NL : ~ ofType BLink c).
    { intros FL. destruct HS as [b j A _ _ _ _ | j _ _ A | j _ A]; [unfold ofType in *; congruence | |]; exact (proj2 HW _ _ A FL). }
    pose proof (IH c m1 m' RC (grown_inv _ _ _ _ _ _ _ G1 HI) HP1 E) as (F1 & F2 & F3). rewrite EF in F1.
    assert (NK : nLink k = real (nName n)).
    { destruct G1 as [_ (x & E1 & H1) _ _ _ _]. rewrite EK in E1. apply app_inv_head in E1. subst x. destruct (proj1 (H1 k) (or_introl eq_refl)) as (y & <- & _ & ->). reflexivity. }
    assert (NT : nTarget t = real (nName n)).
    { destruct G1 as [_ _ (x & E1 & H1 & _) _ _ _]. rewrite ETG in E1. apply app_inv_head in E1. subst x. destruct (proj1 (H1 t) (or_introl eq_refl)) as (y & <- & Ht). exact (target_real w o n t Ht). }
    assert (D : forall s, s = real (nName n) -> zoneL c s -> False).
    { intros s -> [_ [Z | Z]]; [contradiction|]. destruct WC as [E1 | E1]; [rewrite E1 in Z; exact (strictly_ne _ Z)|].
      apply (strictly_ne (real (nName n))). exact (strictly_within _ _ _ E1 (or_intror Z)). }
    assert (ZC : forall s, zoneL c s -> zoneL n s) by (intros s [Z _]; split; [exact (within_trans _ _ _ WC Z) | now left]).
    assert (ZN : zoneL n (real (nName n))) by (split; left; [reflexivity | exact HT]).
    repeat split.
    + eapply fresh_ext; [| exact F1]. intros s Z. exact (within_trans _ _ _ WC Z).
    + eapply fresh_ext; [| refine (fresh_seq nLink (bmLinks m) (bmLinks m1) _ (fun s => s = real (nName n)) (zoneL c) D _ F2)]; [intros s [-> | Z]; [exact ZN | exact (ZC s Z)]|].
      rewrite EK. apply fresh_one. exact NK.
    + eapply fresh_ext; [| refine (fresh_seq nTarget (bmTargets m) (bmTargets m1) _ (fun s => s = real (nName n)) (zoneL c) D _ F3)]; [intros s [-> | Z]; [exact ZN | exact (ZC s Z)]|].
      rewrite ETG. apply fresh_one. exact NT.
  - intros E. injection E as <-. apply all_none.
Qed.
End Fresh.
