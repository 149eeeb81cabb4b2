(** C69: the name of an option, with its key and prefix, means one option *)
From Coq Require Import Lia Sorting.Sorted String.
From Verif Require Import Base Str ConvertModel NumModel RegNameModel OptNameModel OptTableModel OptNameSpec OptNameProof OptNameProof2.
Open Scope Z_scope.
Open Scope list_scope.

(** The tables of the program are sorted, so that the binary search is right, and no name can be taken for a name with a key or with a prefix *)
Theorem C69_tables : wfTables optRules optDeprecate optGroups /\ StronglySorted slt optCommands /\ (forall n, In n optCommands -> ~ In 58 n /\ n <> []) /\
  (forall r, In r optRules -> (List.length (rName r) <= 50)%nat) /\ (List.length optGroups = 2)%nat.
Proof.
  split; [apply tablesb_spec; vm_compute; reflexivity|]. split; [apply sortedb_spec; vm_compute; reflexivity|]. split; [|split; [|reflexivity]].
  - assert (H : forallb (fun n => forallb (fun c => negb (c =? 58)) n && negb (strEqb n [])) optCommands = true) by (vm_compute; reflexivity).
    intros n Hn. pose proof (proj1 (forallb_forall _ _) H n Hn) as Q. cbn beta in Q. apply Bool.andb_true_iff in Q. destruct Q as [Q1 Q2]. split.
    + intros K. pose proof (proj1 (forallb_forall _ _) Q1 58 K) as Q. discriminate Q.
    + intros ->. discriminate Q2.
  - assert (H : forallb (fun r => (List.length (rName r) <=? 50)%nat) optRules = true) by (vm_compute; reflexivity).
    intros r Hr. apply Nat.leb_le. exact (proj1 (forallb_forall _ _) H r Hr).
Qed.
Print Assumptions C69_tables.

(** The name that the program writes for an option and key is read back as this option and key, with either prefix if the option allows it *)
Theorem C69_exact rules deps groups pm im i r k neg rst s : wfTables rules deps groups ->
  nth_error rules i = Some r -> 0 <= k < 256 -> (rGroup r = None -> k = 0) -> (neg = true -> rNegate r = true) -> (rst = true -> rReset r = true) -> neg && rst = false ->
  keyIdxName rules groups i k = Ok s -> (List.length (prefixOf neg rst ++ s) <= 64)%nat ->
  exists dep, parseOption rules deps pm im (prefixOf neg rst ++ s) = Ok (Some (mkOptres i k neg rst dep (rMulti r))) /\ (rGroup r <> None -> dep = false).
Proof. intros W. exact (parse_exact rules deps groups W pm im i r k neg rst s). Qed.
Print Assumptions C69_exact.

(** In the tables of the program this is so for every option and key *)
Theorem C69_exact_program pm im i r k neg rst :
  nth_error optRules i = Some r -> 0 <= k < 256 -> (rGroup r = None -> k = 0) -> (neg = true -> rNegate r = true) -> (rst = true -> rReset r = true) -> neg && rst = false ->
  exists s dep, keyIdxName optRules optGroups i k = Ok s /\ parseOption optRules optDeprecate pm im (prefixOf neg rst ++ s) = Ok (Some (mkOptres i k neg rst dep (rMulti r))).
Proof.
  intros E Hk Hg Hn Hr X. destruct C69_tables as (W & _ & _ & L & _). pose proof (nth_error_In _ _ E) as Hin. specialize (L r Hin).
  assert (S : exists s, keyIdxName optRules optGroups i k = Ok s /\ (List.length s <= 53)%nat).
  { unfold keyIdxName. rewrite E. destruct (rGroup r) as [g|] eqn:G; [|exists (rName r); split; [reflexivity|lia]].
    destruct (wfGroups _ _ _ W r g Hin G) as (gn & e & Eg & En & _). rewrite Eg. eexists. split; [reflexivity|]. rewrite En in *. rewrite skipn_app, skipn_all, Nat.sub_diag. cbn [skipn app].
    rewrite !app_length in *. destruct (keyText k Hk) as (_ & _ & _ & H). lia. }
  destruct S as (s & S & Ls). exists s. destruct (C69_exact optRules optDeprecate optGroups pm im i r k neg rst s W E Hk Hg Hn Hr X S) as (dep & P & _).
  - rewrite app_length. assert (List.length (prefixOf neg rst) <= 6)%nat by (destruct neg, rst; cbn; lia). lia.
  - exists dep. split; [exact S|exact P].
Qed.
Print Assumptions C69_exact_program.

(** Two different (option, key, prefix) never have the same name *)
Theorem C69_distinct i r k neg rst s i' r' k' neg' rst' s' :
  nth_error optRules i = Some r -> 0 <= k < 256 -> (rGroup r = None -> k = 0) -> (neg = true -> rNegate r = true) -> (rst = true -> rReset r = true) -> neg && rst = false ->
  nth_error optRules i' = Some r' -> 0 <= k' < 256 -> (rGroup r' = None -> k' = 0) -> (neg' = true -> rNegate r' = true) -> (rst' = true -> rReset r' = true) -> neg' && rst' = false ->
  keyIdxName optRules optGroups i k = Ok s -> keyIdxName optRules optGroups i' k' = Ok s' -> prefixOf neg rst ++ s = prefixOf neg' rst' ++ s' ->
  i = i' /\ k = k' /\ neg = neg' /\ rst = rst'.
Proof.
  intros A1 A2 A3 A4 A5 A6 B1 B2 B3 B4 B5 B6 S S' E.
  destruct (C69_exact_program false false i r k neg rst A1 A2 A3 A4 A5 A6) as (t & d & T & P). rewrite S in T. injection T as <-.
  destruct (C69_exact_program false false i' r' k' neg' rst' B1 B2 B3 B4 B5 B6) as (t & d' & T & P'). rewrite S' in T. injection T as <-.
  rewrite E, P' in P. injection P as -> -> -> -> _ _. repeat split.
Qed.
Print Assumptions C69_distinct.

(** Whatever is found is the option that the name says: its own name, a deprecated name, or (on the command line) the only one that begins so; the key is the number in the
    name (modulo 2^32), a key other than the first is only for grouped options, and the prefixes are only for options that allow them *)
Theorem C69_sound rules deps groups pm im c o : wfTables rules deps groups -> parseOption rules deps pm im c = Ok (Some o) ->
  (List.length c <= 64)%nat /\ oNegate o && oReset o = false /\
  (exists r, nth_error rules (oId o) = Some r /\ (oNegate o = true -> rNegate r = true) /\ (oReset o = true -> rReset r = true) /\ oMulti o = rMulti r /\
             (oKeyIdx o <> 0 -> grouped r) /\ 0 <= oKeyIdx o < 256) /\
  exists written name, c = prefixOf (oNegate o) (oReset o) ++ written /\ candidateName rules deps pm name (oId o) /\
    (written = name /\ plain name /\ oKeyIdx o = 0 \/
     exists ds, withKey name ds written /\ ds <> [] /\ digitsOnly ds /\ oKeyIdx o + 1 = decimal ds mod two32).
Proof. intros W. exact (parse_sound rules deps groups W pm im c o). Qed.
Print Assumptions C69_sound.

(** In files and in the environment (no prefix match) the name is exact, and with at most nine digits the key is exact as well *)
Theorem C69_sound_exact rules deps groups im c o : wfTables rules deps groups -> parseOption rules deps false im c = Ok (Some o) ->
  exists written name, c = prefixOf (oNegate o) (oReset o) ++ written /\ namesOption rules deps name (oId o) /\
    (written = name /\ oKeyIdx o = 0 \/ exists ds, withKey name ds written /\ digitsOnly ds /\ ((List.length ds <= 9)%nat -> oKeyIdx o + 1 = decimal ds)).
Proof.
  intros W P. apply (C69_sound _ _ groups) in P; [|exact W]. destruct P as (_ & _ & _ & w & n & C & N & K). exists w, n. split; [exact C|]. split.
  - destruct N as [N|(N & _)]; [exact N|discriminate].
  - destruct K as [(K1 & _ & K3)|(ds & K1 & K2 & K3 & K4)]; [left; split; assumption|]. right. exists ds. split; [exact K1|]. split; [exact K3|]. intros L. rewrite K4. apply Z.mod_small.
    rewrite <- (rev_involutive ds), decimal_rev. assert (D : digitsOnly (rev ds)) by (intros c' H; apply K3; apply in_rev; exact H). 
    pose proof (decR_bound (rev ds) D) as B. rewrite rev_length in B.
    assert (10 ^ Z.of_nat (List.length ds) <= 10 ^ 9) by (apply Z.pow_le_mono_r; lia). change (10 ^ 9) with 1000000000 in *. unfold two32. change (2 ^ 32) with 4294967296. lia.
Qed.
Print Assumptions C69_sound_exact.

(** The key is not always the number in the name: it wraps *)
Theorem C69_key_refuted : exists c o, parseOption optRules optDeprecate false false c = Ok (Some o) /\ c = txt "pg4294967297-path" /\ oKeyIdx o = 0 /\
  parseOption optRules optDeprecate false false (txt "pg1-path") = Ok (Some o).
Proof.
  exists (txt "pg4294967297-path").
  assert (Q : match parseOption optRules optDeprecate false false (txt "pg4294967297-path"), parseOption optRules optDeprecate false false (txt "pg1-path") with
              | Ok (Some o), Ok (Some o') => o = o' /\ oKeyIdx o = 0 | _, _ => False end) by (vm_compute; split; reflexivity).
  destruct (parseOption optRules optDeprecate false false (txt "pg4294967297-path")) as [[o|]| |]; try contradiction.
  destruct (parseOption optRules optDeprecate false false (txt "pg1-path")) as [[o'|]| |]; try contradiction. destruct Q as [<- Q].
  exists o. split; [reflexivity|]. split; [reflexivity|]. split; [exact Q|reflexivity].
Qed.
Print Assumptions C69_key_refuted.

(** Commands: the name of a command, alone or with a role, is that command *)
Theorem C69_command commands i name role : StronglySorted slt commands -> nth_error commands i = Some name -> ~ In 58 name ->
  commandId commands name = Ok i /\ commandId commands (name ++ 58 :: role) = Ok i.
Proof.
  intros S E N. unfold commandId. rewrite (beforeColon_none _ N), (beforeColon_at _ _ N), (command_exact _ _ _ S E). split; reflexivity.
Qed.
Print Assumptions C69_command.

(** What is accepted is the beginning of the name of the command, and the first such command is taken *)
Theorem C69_command_sound commands c i : commandId commands c = Ok i ->
  exists name, nth_error commands i = Some name /\ (exists e, name = beforeColon c ++ e) /\ forall j m, (j < i)%nat -> nth_error commands j = Some m -> forall e, m <> beforeColon c ++ e.
Proof.
  unfold commandId. pose proof (firstBegins_spec commands (beforeColon c) 0) as H. destruct (firstBegins 0 commands (beforeColon c)) as [j|]; [|discriminate]. intros E. injection E as <-.
  destruct H as (n & _ & H1 & H2 & H3). rewrite Nat.sub_0_r in *. exists n. split; [exact H1|]. split; [apply begins_spec; exact H2|].
  intros k m Hk Hm e Ee. specialize (H3 k m Hk Hm). assert (strBeginsWith m (beforeColon c) = true) by (apply begins_spec; exists e; exact Ee). congruence.
Qed.
Print Assumptions C69_command_sound.

(** The function accepts names that are not commands *)
Theorem C69_command_refuted : commandId optCommands (txt "st") = Ok 15%nat /\ nth_error optCommands 15 = Some (txt "stanza-create") /\
  commandId optCommands [] = Ok 0%nat /\ commandId optCommands (txt ":local") = Ok 0%nat /\ ~ In (txt "st") optCommands.
Proof.
  repeat (split; [vm_compute; reflexivity|]). intros H. assert (Q : existsb (strEqb (txt "st")) optCommands = true) by (apply existsb_exists; exists (txt "st"); split; [exact H|apply strEqb_refl]).
  vm_compute in Q. discriminate Q.
Qed.
Print Assumptions C69_command_refuted.

Example C69_nontrivial :
  let found pm c := match parseOption optRules optDeprecate pm false (txt c) with
    | Ok (Some o) => Ok (Some (match nth_error optRules (oId o) with Some r => rName r | None => [] end, oKeyIdx o, oNegate o, oReset o, oDeprecated o)) | Ok None => Ok None | Err e => Err e | UB => UB end in
  found true "reset-repo3-path"%string = Ok (Some (txt "repo-path", 2, false, true, false)) /\
  found true "no-repo1-path"%string = Err EOther /\
  found false "pg-path"%string = Err EOther /\
  found false "pg257-path"%string = Err EOther /\
  found false "pg0-path"%string = Err EOther /\
  found false "delt"%string = Ok None /\
  found true "delt"%string = Ok (Some (txt "delta", 0, false, false, false)) /\
  found false "db2-path"%string = Ok (Some (txt "pg-path", 1, false, false, true)) /\
  commandId optCommands (txt "archive-push:async") = Ok 2%nat.
Proof. vm_compute. repeat split. Qed.
