From Verif Require Import Base ConvertModel ConvertSpec ConvertProof BlockMapModel BlockMapSpec BlockMapProof.
Open Scope Z_scope.

Lemma runs_head key x l : exists g gs, runs key (x :: l) = (x :: g) :: gs.
Proof. cbn [runs]. destruct (runs key l) as [|[|y g] gs]; eauto. destruct (key x =? key y); eauto. Qed.
Lemma bits3 a b c x : let e := bit a 1 + bit b 2 + bit c 4 + 2 ^ 3 * x in Z.testbit e 0 = a /\ Z.testbit e 1 = b /\ Z.testbit e 2 = c /\ Z.shiftr e 3 = x.
Proof. cbv zeta. rewrite !bit_low by lia. rewrite shift_high by (destruct a, b, c; cbn; lia). destruct a, b, c; auto. Qed.
Lemma bits3_range a b c : 0 <= bit a 1 + bit b 2 + bit c 4 < 2 ^ 3.
Proof. destruct a, b, c; cbn; lia. Qed.

Section Read.
Variable bs : Z. Variable cs : nat.
Hypothesis Hbs : 0 < bs < 2 ^ 62.

Lemma sbs_cont lr R B sb g' gs k sizeLast : refOk cs R B ((sb :: g') :: gs) -> 0 <= k <= iBlock sb -> 0 <= R < 2 ^ 29 ->
  let lst := match gs with [] => true | _ => false end in
  let rd := mkRef R (iSbs sb) B (iOff sb) (iSize sb) k in let e := bit lr 1 + bit true 2 + bit lst 4 + 2 ^ 3 * R in let all := (sb :: g') ++ concat gs in
  exists eb bytes, wVar e = Ok eb /\ (1 <= length eb)%nat /\ (forall rest, rVar (eb ++ rest) = Ok (e, rest)) /\
    writeSbs bs (Z.lor (bit lr 1) 2) R rd sizeLast true ((sb :: g') :: gs) = Ok (eb ++ bytes, rdOf (dlast all), iSize (dlast all)) /\
    (S (length gs) <= length bytes)%nat /\
    forall tail fuel, (S (length gs) <= fuel)%nat ->
      readSbs fuel bs cs e rd (mkItem R (iSbs sb) B (iOff sb) (iSize sb) 0 (repeat 0 cs)) sizeLast true true (bytes ++ tail) = Ok (all, rdOf (dlast all), iSize (dlast all), tail).
Proof.
  intros Hok Hk HR lst rd e all. destruct (refOk_head _ _ _ _ _ Hok) as (sb0 & g0 & Eg & Sq & Oi & Lt & E1 & E2 & Sz & Nx). injection Eg as <- <-. pose proof Oi as (O1 & O2 & O3 & O4 & O5 & O6 & O7 & O8).
  destruct (wv e) as (eb & Ee & El & Er); [pose proof (bits3_range lr true lst); unfold e; lia|]. destruct (bits3 lr true lst R) as (T0 & T1 & T2 & T3). fold e in T0, T1, T2, T3.
  set (g := sb :: g') in *. set (total := Z.of_nat (length g)).
  set (itr := mkItem R (iSbs sb) B (iOff sb) (iSize sb) 0 (repeat 0 cs)).
  assert (TS := fun tail => total_sim bs cs true rd rd sb g' tail itr R B Sq Oi Lt eq_refl Hk ltac:(discriminate) eq_refl eq_refl eq_refl eq_refl eq_refl eq_refl eq_refl eq_refl eq_refl eq_refl (repeat_length 0 cs)).
  cbv zeta in TS. fold g in TS. fold total in TS. cbn [orb] in TS.
  destruct (TS []) as (b2 & rd2 & Ew2 & Erd & Lb & _).
  assert (Rd0 : forall tail, exists sum', length sum' = cs /\
     (let* (x, b) := rVar (b2 ++ concat (map iSum g) ++ tail) in
          let* (block, b') := if Z.testbit x 0 then let* (y, b3) := rVar b in Ok (u64 (rdBlock rd + y), b3) else Ok (rdBlock rd, b) in
          Ok (u64 (Z.shiftr x 1 + 1), block, b')) = Ok (total, iBlock sb, concat (map iSum g) ++ tail) /\
     readSums (Z.to_nat total) cs (mkItem (iRef itr) (iSbs itr) (iBundle itr) (iOff itr) (iSize itr) (iBlock sb) (iSum itr)) (concat (map iSum g) ++ tail) = (g, sum', tail)).
  { intros tail. destruct (TS tail) as (b2' & rd2' & Ew2' & _ & _ & Rx & sum' & Ls & Es). rewrite Ew2 in Ew2'. injection Ew2' as <- <-. eauto. }
  destruct (seqf_last cs R (iSbs sb) B (iOff sb) (iSize sb) g' (iBlock sb) sb Sq) as (Lr & _). rewrite (last_default sb g' sb (mkItem 0 0 0 0 0 0 [])) in Lr. fold (dlast (sb :: g')) in Lr. fold g in Lr. fold total in Lr.
  assert (Rrd : mkRef (rdRef rd) (rdSbs rd) (rdBundle rd) (rdOff rd) (rdSize rd) (u64 (iBlock sb + total)) = rdOf (dlast g)).
  { rewrite Lr. cbn [rd rdRef rdSbs rdBundle rdOff rdSize]. rewrite u64_small by (unfold total; lia). reflexivity. }
  assert (Rsz : iSize (dlast g) = iSize sb) by apply Sz.
  assert (Rsb : rdOf (dlast g) = mkRef R (iSbs sb) B (iOff sb) (iSize sb) (iBlock sb + total)) by exact Lr. clear Lr.
  assert (RD : forall tail fuel, exists sum', length sum' = cs /\
     readSbs (S fuel) bs cs e rd itr sizeLast true true (b2 ++ concat (map iSum g) ++ tail) =
     if lst then Ok (g, rdOf (dlast g), iSize sb, tail)
     else let* (l', rd', sl, buf') := readSbs fuel bs cs e (rdOf (dlast g)) (mkItem R (iSbs sb) B (iOff sb + iSize sb) (iSize sb) (iBlock sb) sum') (iSize sb) false false tail in Ok (g ++ l', rd', sl, buf')).
  { intros tail fuel. destruct (Rd0 tail) as (sum' & Ls & Et2 & Es). exists sum'. split; [exact Ls|]. cbn [readSbs bind]. rewrite T2.
    assert (Q2 : Z.testbit (Z.lor (bit lst 1) 4) 2 = true) by (clear; destruct lst; reflexivity). assert (Q0 : Z.testbit (Z.lor (bit lst 1) 4) 0 = lst) by (clear; destruct lst; reflexivity).
    rewrite Q2, Q0, Et2. cbn [bind]. rewrite Es, Rrd. cbn [itr iRef iSbs iBundle iOff iSize iBlock iSum]. rewrite (i64_small (iSize sb)) by lia. rewrite (u64_small (iOff sb + iSize sb)) by lia. reflexivity. }
  assert (Wr : wVar (refEncode (Z.lor (Z.lor (bit lr 1) 2) (bit lst 4)) R) = Ok eb).
  { replace (Z.lor (Z.lor (bit lr 1) 2) (bit lst 4)) with (bit lr 1 + bit true 2 + bit lst 4) by (clear; destruct lr, lst; reflexivity). rewrite refEncode_spec; [exact Ee|apply bits3_range|exact HR]. }
  assert (W1 : forall rest, rest = gs -> writeSbs bs (Z.lor (bit lr 1) 2) R rd sizeLast true (g :: gs) =
     let* (b3, rd4, sl) := writeSbs bs (Z.lor (bit lr 1) 2) R (rdOf (dlast g)) (iSize sb) false rest in Ok (eb ++ b2 ++ concat (map iSum g) ++ b3, rd4, sl)).
  { intros rest ->. unfold g at 1. cbn [writeSbs orb]. fold lst. rewrite Wr. cbn [bind]. fold g. fold total. rewrite Ew2. cbn [bind]. rewrite Erd. rewrite (i64_small (iSize sb)) by lia. reflexivity. }
  specialize (W1 gs eq_refl). specialize (Lb eq_refl).
  destruct gs as [|g2 gs].
  - assert (E0 : forall f r rd0 sl, writeSbs bs f r rd0 sl false [] = Ok ([], rd0, sl)) by reflexivity. rewrite E0 in W1. cbn [bind] in W1. unfold all. cbn [concat]. rewrite app_nil_r in *. exists eb, (b2 ++ concat (map iSum g)). rewrite Rsz. split; [exact Ee|]. split; [exact El|]. split; [exact Er|]. split; [exact W1|].
    split; [cbn [length]; rewrite app_length; lia|]. intros tail fuel Hf. destruct fuel as [|fuel]; [cbn in Hf; lia|]. destruct (RD tail fuel) as (? & _ & E). rewrite <- !app_assoc. rewrite E. reflexivity.
  - pose proof (refOk_step bs cs Hbs _ _ _ _ Hok) as Hok'. destruct (refOk_head _ _ _ _ _ Hok') as (sb2 & g2' & -> & _).
    assert (IH := fun sum' (Ls : length sum' = cs) => sbs_nc bs cs Hbs (Z.lor (bit lr 1) 2) R B ((sb2 :: g2') :: gs) ltac:(discriminate) Hok' (rdOf (dlast g)) (rdOf (dlast g)) (mkItem R (iSbs sb) B (iOff sb + iSize sb) (iSize sb) (iBlock sb) sum') (iSize sb) false).
    assert (IH' : forall sum', length sum' = cs -> exists bytes, writeSbs bs (Z.lor (bit lr 1) 2) R (rdOf (dlast g)) (iSize sb) false ((sb2 :: g2') :: gs) = Ok (bytes, rdOf (dlast (concat ((sb2 :: g2') :: gs))), iSize (dlast (concat ((sb2 :: g2') :: gs)))) /\ (length ((sb2 :: g2') :: gs) <= length bytes)%nat /\
       forall tail fuel refEnc, (length ((sb2 :: g2') :: gs) <= fuel)%nat -> readSbs fuel bs cs refEnc (rdOf (dlast g)) (mkItem R (iSbs sb) B (iOff sb + iSize sb) (iSize sb) (iBlock sb) sum') (iSize sb) false false (bytes ++ tail) =
         Ok (concat ((sb2 :: g2') :: gs), rdOf (dlast (concat ((sb2 :: g2') :: gs))), iSize (dlast (concat ((sb2 :: g2') :: gs))), tail)).
    { intros sum' Ls. apply (IH sum' Ls); try rewrite Rsb; cbn [rdRef rdBundle rdSbs rdOff iRef iBundle iSbs iOff iSum]; try reflexivity; try assumption; try lia. }
    clear IH. destruct (IH' _ (repeat_length 0 cs)) as (b3 & Ew3 & L3 & _). rewrite Ew3 in W1. cbn [bind] in W1.
    assert (DL : dlast all = dlast (concat ((sb2 :: g2') :: gs))) by (unfold dlast, all; cbn [concat app]; apply last_app2). rewrite DL.
    exists eb, (b2 ++ concat (map iSum g) ++ b3). split; [exact Ee|]. split; [exact El|]. split; [exact Er|]. split; [exact W1|]. split; [clear -Lb L3; cbn [length] in *; rewrite !app_length; lia|].
    intros tail fuel Hf. destruct fuel as [|fuel]; [clear -Hf; lia|]. destruct (RD (b3 ++ tail) fuel) as (sum' & Ls & E). rewrite <- !app_assoc. fold itr. rewrite E. unfold lst.
    destruct (IH' sum' Ls) as (b3' & Ew3' & _ & Er3). rewrite Ew3 in Ew3'. injection Ew3' as <-. rewrite Er3; [reflexivity|]. clear -Hf. cbn [length] in *. lia.
Qed.

(** * References *)
Definition lastRef (r : Z) (d : list item) : option item := find (fun x => iRef x =? r) (rev d).
Definition refsInv (refs : list refData) (d : list item) : Prop := forall r, refFind refs r = option_map rdOf (lastRef r d).
Lemma refFind_set refs rd r : refFind (refSet refs rd) r = if rdRef rd =? r then Some rd else refFind refs r.
Proof.
  unfold refFind. induction refs as [|x refs IH]; [cbn; destruct (rdRef rd =? r); reflexivity|]. cbn [refSet]. destruct (Z.eqb_spec (rdRef x) (rdRef rd)) as [E|E]; cbn [find].
  - rewrite E. destruct (rdRef rd =? r); reflexivity.
  - rewrite IH. destruct (Z.eqb_spec (rdRef x) r), (Z.eqb_spec (rdRef rd) r); try congruence; reflexivity.
Qed.
Lemma lastRef_app r d g : lastRef r (d ++ g) = match lastRef r g with Some x => Some x | None => lastRef r d end.
Proof.
  unfold lastRef. rewrite rev_app_distr. generalize (rev g) as a. generalize (rev d) as b. clear. intros b a. induction a as [|x a IH]; [reflexivity|]. cbn. destruct (iRef x =? r); [reflexivity|exact IH].
Qed.
Lemma dlast_snoc x g : exists g0, x :: g = g0 ++ [dlast (x :: g)].
Proof. unfold dlast. exists (removelast (x :: g)). apply app_removelast_last. discriminate. Qed.
Lemma lastRef_same R r x g : (forall y, In y (x :: g) -> iRef y = R) -> lastRef r (x :: g) = if R =? r then Some (dlast (x :: g)) else None.
Proof.
  intros H. unfold lastRef. destruct (dlast_snoc x g) as (g0 & E). assert (D : iRef (dlast (x :: g)) = R) by (apply H; apply in_last).
  assert (E2 : rev (x :: g) = dlast (x :: g) :: rev g0) by (rewrite E at 1; now rewrite rev_app_distr). rewrite E2. cbn [find]. rewrite D. destruct (Z.eqb_spec R r) as [Q|Q]; [reflexivity|].
  assert (Q2 : forall l, (forall y, In y l -> iRef y = R) -> find (fun x0 => iRef x0 =? r) l = None). { induction l as [|y l IH]; intros Hl; [reflexivity|]. cbn. rewrite (Hl y (or_introl eq_refl)). destruct (Z.eqb_spec R r); [congruence|]. apply IH. intros z Hz. apply Hl. now right. }
  apply Q2. intros y Hy. apply H. rewrite E. apply in_app_iff. left. now apply in_rev.
Qed.
Lemma refsInv_step refs d x g R : refsInv refs d -> (forall y, In y (x :: g) -> iRef y = R) -> refsInv (refSet refs (rdOf (dlast (x :: g)))) (d ++ x :: g).
Proof.
  intros I H r. rewrite refFind_set, lastRef_app, (lastRef_same R) by exact H. destruct (dlast_snoc x g) as (g0 & E).
  assert (D : iRef (dlast (x :: g)) = R) by (apply H; apply in_last). cbn [rdOf rdRef]. rewrite D. destruct (R =? r); [reflexivity|apply I].
Qed.
Lemma lastRef_in r d p : lastRef r d = Some p -> exists pre mid, d = pre ++ p :: mid /\ iRef p = r.
Proof. intros H. apply find_some in H. destruct H as (H & E). apply in_rev in H. apply Z.eqb_eq in E. apply in_split in H. destruct H as (a & b & ->). eauto. Qed.

Lemma mapOk_chain pre g post R : mapOk cs (pre ++ g ++ post) -> (forall y, In y g -> iRef y = R) -> chain g.
Proof.
  intros (_ & M). revert pre M. induction g as [|a g IH]; intros pre M H; [exact I|]. cbn [chain]. split.
  - destruct g as [|b g]; [exact I|]. destruct (M pre a [] b (g ++ post)) as ((_ & O1 & O2 & O3) & N); [reflexivity|rewrite !H; cbn; auto|]. specialize (N eq_refl). destruct N as (N1 & N2).
    split; intros E; [destruct (O2 E) as (? & ? & ?); auto|apply N2; lia].
  - apply (IH (pre ++ [a])); [rewrite <- app_assoc; exact M|]. intros y Hy. apply H. now right.
Qed.
Lemma mapOk_refOk pre x g post R : mapOk cs (pre ++ (x :: g) ++ post) -> (forall y, In y (x :: g) -> iRef y = R) -> refOk cs R (iBundle x) (runs iOff (x :: g)).
Proof.
  intros M H. split; [apply runs_isRuns|]. rewrite runs_concat. split; [eapply mapOk_chain; eauto|]. split; [destruct M as (M & _); rewrite !Forall_app in M; tauto|].
  intros y Hy. split; [now apply H|]. destruct Hy as [<-|Hy]; [reflexivity|]. pose proof (in_split _ _ Hy) as (g1 & g2 & ->). destruct M as (_ & M). destruct (M pre x g1 y (g2 ++ post)) as ((O & _) & _); [cbn; now rewrite <- !app_assoc| |now symmetry].
  rewrite (H x (or_introl eq_refl)). symmetry. apply H. now right.
Qed.

Lemma refs_sim : forall gs, gs <> [] -> isRuns iRef gs -> forall d refs sizeLast, mapOk cs (d ++ concat gs) -> refsInv refs d -> 0 <= sizeLast < 2 ^ 60 ->
  exists bytes, writeRefs bs refs sizeLast gs = Ok bytes /\ (length gs <= length bytes)%nat /\ forall tail fuel, (length gs <= fuel)%nat -> readRefs fuel bs cs refs sizeLast (bytes ++ tail) = Ok (concat gs, tail).
Proof.
  induction gs as [|g gs IH]; intros Hne Hr; [congruence|]. clear Hne. intros d refs sizeLast M Inv Sl. destruct Hr as ((x & g' & -> & Kx) & _ & Hr).
  assert (KR : forall y, In y (x :: g') -> iRef y = iRef x) by exact Kx. clear Kx. cbn [concat] in M.
  pose proof (mapOk_refOk _ _ _ _ _ M KR) as Hok. destruct (runs_head iOff x g') as (s & sg & Er). rewrite Er in Hok.
  assert (Ec : concat ((x :: s) :: sg) = x :: g') by (rewrite <- Er; apply runs_concat). assert (Fx : itemOk cs x) by (destruct Hok as (_ & _ & F & _); exact (Forall_inv F)).
  assert (Fl : itemOk cs (dlast (x :: g'))). { destruct Hok as (_ & _ & F & _). rewrite Ec in F. rewrite Forall_forall in F. apply F. apply in_last. }
  pose proof Fx as (X1 & X2 & X3 & X4 & X5 & X6 & X7 & X8). destruct Fl as (_ & _ & _ & _ & Fl & _).
  set (lst := match gs with [] => true | _ => false end). cbn [writeRefs]. fold lst. rewrite Er.
  (* the header and the super blocks *)
  assert (H1 : exists hdr body rdw fl cont,
     match refFind refs (iRef x) with
     | None => let flags := Z.lor (bit lst 1) (Z.lor (bit (0 <? iBundle x) 2) (bit (0 <? iOff x) 4)) in
            let* a := wVar (refEncode flags (iRef x)) in let* b := if 0 <? iBundle x then wVar (iBundle x) else Ok [] in let* c := if 0 <? iOff x then wVar (iOff x) else Ok [] in
            Ok (a ++ b ++ c, mkRef (iRef x) bs (iBundle x) (iOff x) 0 0, flags, false)
     | Some rd => if iOff x =? rdOff rd then Ok ([], rd, Z.lor (bit lst 1) 2, true)
            else let offset := u64 (rdOff rd + rdSize rd) <? iOff x in let flags := Z.lor (bit lst 1) (bit offset 4) in
              let* a := wVar (refEncode flags (iRef x)) in let* b := if offset then wVar (iOff x - (rdOff rd + rdSize rd)) else Ok [] in
              Ok (a ++ b, mkRef (rdRef rd) (rdSbs rd) (rdBundle rd) (iOff x) (iSize x) (rdBlock rd), flags, false)
     end = Ok (hdr, rdw, fl, cont) /\ writeSbs bs fl (iRef x) rdw sizeLast cont ((x :: s) :: sg) = Ok (body, rdOf (dlast (x :: g')), iSize (dlast (x :: g'))) /\ (1 <= length (hdr ++ body))%nat /\
     forall fuel tail, readRefs (S fuel) bs cs refs sizeLast ((hdr ++ body) ++ tail) =
        if lst then Ok (x :: g', tail) else let* (l', b3) := readRefs fuel bs cs (refSet refs (rdOf (dlast (x :: g')))) (iSize (dlast (x :: g'))) tail in Ok ((x :: g') ++ l', b3)).
  { pose proof (Inv (iRef x)) as Iv. destruct (refFind refs (iRef x)) as [rd|] eqn:Rf.
    - destruct (lastRef (iRef x) d) as [p|] eqn:Lp; [|discriminate]. injection Iv as ->. destruct (lastRef_in _ _ _ Lp) as (pre & mid & -> & Ep).
      destruct M as (MF & M). destruct (M pre p mid x (g' ++ concat gs)) as ((Pb & Po & Pe & Pl) & _); [now rewrite <- !app_assoc|exact Ep|].
      assert (Fp : itemOk cs p) by (rewrite !Forall_app in MF; destruct MF as ((_ & MF) & _); exact (Forall_inv MF)). destruct Fp as (P1 & P2 & P3 & P4 & P5 & P6 & P7 & P8). clear MF M.
      cbn [rdOf rdOff rdSize rdRef rdSbs rdBundle rdBlock]. destruct (Z.eqb_spec (iOff x) (iOff p)) as [Q|Q].
      + destruct (Pe (eq_sym Q)) as (Q1 & Q2 & Q3).
        destruct (sbs_cont lst (iRef x) (iBundle x) x s sg (iBlock p + 1) sizeLast Hok ltac:(lia) X1) as (eb & body & _ & Le & Re & Ws & Lb & Rs). cbn [concat] in Ec. cbv zeta in *. rewrite Ec in *.
        set (ls2 := match sg with [] => true | _ => false end) in *.
        assert (Erd : rdOf p = mkRef (iRef x) (iSbs x) (iBundle x) (iOff x) (iSize x) (iBlock p + 1)) by (unfold rdOf; rewrite Ep, Q1, Pb, Q2, Q; reflexivity).
        exists [], (eb ++ body), (rdOf p), (Z.lor (bit lst 1) 2), true. split; [reflexivity|]. rewrite Erd at 1. split; [exact Ws|]. split; [cbn [app]; rewrite app_length; lia|]. intros fuel tail. cbn [app readRefs].
        rewrite <- app_assoc, Re. cbn [bind]. destruct (bits3 lst true ls2 (iRef x)) as (T0 & T1 & T2 & T3). rewrite T3, T0, T1. rewrite (Z.mod_small (iRef x)) by (unfold two32; lia). rewrite Rf, Erd. cbn [rdOff rdSize rdRef rdSbs rdBundle rdBlock bind]. rewrite Rs by (rewrite app_length; lia). reflexivity.
      + assert (Pl' : iOff p + iSize p <= iOff x) by (apply Pl; lia). rewrite u64_small by lia. set (offset := iOff p + iSize p <? iOff x).
        assert (Fg : Z.lor (bit lst 1) (bit offset 4) = bit lst 1 + bit false 2 + bit offset 4) by (clear; destruct lst, offset; reflexivity). rewrite Fg. rewrite refEncode_spec by (try apply bits3_range; lia).
        destruct (bits3 lst false offset (iRef x)) as (T0 & T1 & T2 & T3). set (e := bit lst 1 + bit false 2 + bit offset 4 + 2 ^ 3 * iRef x) in *.
        destruct (wv e) as (a & Ea & La & Ra); [pose proof (bits3_range lst false offset); unfold e; lia|]. rewrite Ea. cbn [bind].
        assert (Hb : exists b, (if offset then wVar (iOff x - (iOff p + iSize p)) else Ok []) = Ok b /\
           forall rest, (if offset then let* (y, b1) := rVar (b ++ rest) in Ok (u64 (iOff p + iSize p + y), b1) else Ok (u64 (iOff p + iSize p), b ++ rest)) = Ok (iOff x, rest)).
        { unfold offset. destruct (Z.ltb_spec (iOff p + iSize p) (iOff x)) as [L|L].
          - destruct (wv (iOff x - (iOff p + iSize p)) ltac:(lia)) as (b & Eb & _ & Rb). exists b. split; [exact Eb|]. intros rest. rewrite Rb. cbn [bind]. rewrite u64_small by lia. do 2 f_equal. lia.
          - exists []. split; [reflexivity|]. intros rest. rewrite u64_small by lia. cbn [app]. do 2 f_equal. lia. }
        destruct Hb as (b & Eb & Rb). rewrite Eb. cbn [bind].
        destruct (sbs_nc bs cs Hbs (bit lst 1 + bit false 2 + bit offset 4) (iRef x) (iBundle x) ((x :: s) :: sg) ltac:(discriminate) Hok (mkRef (iRef p) (iSbs p) (iBundle p) (iOff x) (iSize x) (iBlock p + 1))
           (mkRef (iRef p) (iSbs p) (iBundle p) (iOff x) (iSize p) (iBlock p + 1)) (mkItem (iRef x) (iSbs p) (iBundle p) (iOff x) 0 0 (repeat 0 cs)) sizeLast true) as (body & Ws & Lb & Rs); try assumption; try reflexivity; try (apply repeat_length); try discriminate.
        rewrite Ec in *. exists (a ++ b), body. eexists _, _, _. split; [reflexivity|]. split; [exact Ws|]. split; [rewrite !app_length; lia|]. intros fuel tail. cbn [readRefs]. rewrite <- !app_assoc, Ra. cbn [bind].
        rewrite T3, T0, T1, T2. rewrite (Z.mod_small (iRef x)) by (unfold two32; lia). rewrite Rf. cbn [rdOf rdOff rdSize rdRef rdSbs rdBundle rdBlock]. rewrite Rb. cbn [bind]. rewrite Rs by (rewrite app_length; lia). reflexivity.
    - cbv zeta. rewrite lor_flags2. rewrite refEncode_spec by (try apply bits3_range; lia). destruct (bits3 lst (0 <? iBundle x) (0 <? iOff x) (iRef x)) as (T0 & T1 & T2 & T3).
      set (e := bit lst 1 + bit (0 <? iBundle x) 2 + bit (0 <? iOff x) 4 + 2 ^ 3 * iRef x) in *. destruct (wv e) as (a & Ea & La & Ra); [pose proof (bits3_range lst (0 <? iBundle x) (0 <? iOff x)); unfold e; lia|]. cbv zeta. rewrite Ea. cbn [bind].
      assert (Opt : forall v, 0 <= v < 2 ^ 64 -> exists b, (if 0 <? v then wVar v else Ok []) = Ok b /\ forall rest, (if 0 <? v then rVar (b ++ rest) else Ok (0, b ++ rest)) = Ok (v, rest)).
      { intros v Hv. destruct (Z.ltb_spec 0 v); [destruct (wv v Hv) as (b & Eb & _ & Rb); eauto|]. exists []. split; [reflexivity|]. intros rest. cbn [app]. do 2 f_equal. lia. }
      destruct (Opt (iBundle x) X3) as (b & Eb & Rb). destruct (Opt (iOff x) ltac:(lia)) as (c & Eo & Ro). rewrite Eb, Eo. cbn [bind].
      destruct (sbs_nc bs cs Hbs (bit lst 1 + bit (0 <? iBundle x) 2 + bit (0 <? iOff x) 4) (iRef x) (iBundle x) ((x :: s) :: sg) ltac:(discriminate) Hok (mkRef (iRef x) bs (iBundle x) (iOff x) 0 0)
           (mkRef (iRef x) bs (iBundle x) (iOff x) 0 0) (mkItem (iRef x) bs (iBundle x) (iOff x) 0 0 (repeat 0 cs)) sizeLast true) as (body & Ws & Lb & Rs); try assumption; try reflexivity; try (apply repeat_length); try discriminate.
      rewrite Ec in *. exists (a ++ b ++ c), body. eexists _, _, _. split; [reflexivity|]. split; [exact Ws|]. split; [rewrite !app_length; lia|]. intros fuel tail. cbn [readRefs]. rewrite <- !app_assoc, Ra. cbn [bind].
      rewrite T3, T0, T1, T2. rewrite (Z.mod_small (iRef x)) by (unfold two32; lia). rewrite Rf, Rb. cbn [bind]. rewrite Ro. cbn [bind]. rewrite Rs by (rewrite app_length; lia). reflexivity. }
  destruct H1 as (hdr & body & rdw & fl & cont & Eh & Eb & Lh & Rh). cbv zeta in Eh |- *. rewrite Eh. cbn [bind]. rewrite Eb. cbn [bind].
  destruct gs as [|g2 gs].
  - cbn [writeRefs bind]. rewrite app_nil_r. eexists. split; [reflexivity|]. split; [exact Lh|]. intros tail fuel Hf. destruct fuel as [|fuel]; [cbn in Hf; lia|]. rewrite Rh. cbn [lst concat]. now rewrite app_nil_r.
  - destruct (IH ltac:(discriminate) Hr (d ++ x :: g') (refSet refs (rdOf (dlast (x :: g')))) (iSize (dlast (x :: g')))) as (b3 & E3 & L3 & R3); [rewrite <- app_assoc; exact M|eapply refsInv_step; eauto|lia|].
    rewrite E3. cbn [bind]. eexists. split; [reflexivity|]. split; [rewrite app_assoc, app_length; cbn [length] in *; lia|]. intros tail fuel Hf. destruct fuel as [|fuel]; [cbn in Hf; lia|].
    replace ((hdr ++ body ++ b3) ++ tail) with ((hdr ++ body) ++ b3 ++ tail) by now rewrite <- !app_assoc. rewrite Rh. unfold lst. rewrite R3 by (cbn [length] in *; lia). reflexivity.
Qed.

Lemma map_round_trip m : mapOk cs m -> m <> [] -> exists bytes, blockMapWrite bs m = Ok bytes /\ forall tail, blockMapRead bs cs (bytes ++ tail) = Ok (m, tail).
Proof.
  intros M Hm. unfold blockMapWrite, blockMapRead. destruct (wv 0 ltac:(lia)) as (a & Ea & _ & Ra). rewrite Ea. cbn [bind].
  destruct (refs_sim (runs iRef m)) with (d := @nil item) (refs := @nil refData) (sizeLast := 0) as (b & Eb & Lb & Rb); try (intros r; reflexivity); try lia.
  - intros E. apply Hm. rewrite <- (runs_concat iRef m), E. reflexivity.
  - apply runs_isRuns.
  - cbn [app]. rewrite runs_concat. exact M.
  - rewrite Eb. cbn [bind]. exists (a ++ b). split; [reflexivity|]. intros tail. rewrite <- app_assoc, Ra. cbn [bind]. rewrite runs_concat in Rb. apply Rb. rewrite app_length. lia.
Qed.
End Read.

(** The condition on pairs, one item at a time *)
Definition pairOk (m : list item) : Prop := forall pre a mid b post, m = pre ++ a :: mid ++ b :: post -> iRef a = iRef b -> orderOk a b /\ (mid = [] -> nextOk a b).
Definition headOk (x : item) (first : Prop) (l : list item) : Prop := forall mid b post, l = mid ++ b :: post -> iRef x = iRef b -> orderOk x b /\ (first -> mid = [] -> nextOk x b).
Lemma pairOk_nil : pairOk []. Proof. intros [|? ?] a mid b post E; discriminate. Qed.
Lemma pairOk_cons x l : headOk x True l -> pairOk l -> pairOk (x :: l).
Proof.
  intros H P [|y pre] a mid b post E Hr; cbn in E.
  - injection E as -> E. destruct (H mid b post E Hr). auto.
  - injection E as -> E. eapply P; eassumption.
Qed.
Lemma headOk_nil x f : headOk x f []. Proof. intros [|? ?] b post E; discriminate. Qed.
Lemma headOk_cons x (f : Prop) y l : (iRef x = iRef y -> orderOk x y /\ (f -> nextOk x y)) -> headOk x False l -> headOk x f (y :: l).
Proof.
  intros H P [|z mid] b post E Hr; cbn in E.
  - injection E as -> E. destruct (H Hr). auto.
  - injection E as -> E. destruct (P mid b post E Hr). split; [assumption|discriminate].
Qed.
