(** Properties C40, C51 and C52: the two copies of an info file, ini lines, and info files with their checksum. *)
From Verif Require Import Base Str NumSpec JsonModel JsonSpec JsonProof5 IniModel InfoModel InfoSpec IniProof InfoProof InfoProof2 InfoProof3 InfoProof4 InfoProof5 InfoProof6.
From Coq Require Import Sorting.Sorted.
Open Scope Z_scope.

(** ** C40 *)
(** Whatever the pair of files loads as before, at every step of a save it loads as that or as the new content, and after the first step only as
    the new content. *)
Theorem C40_save_steps_load : forall A (parse : str -> res A) main copy old text new, infoFileLoad parse main copy = old -> parse text = Ok new ->
  forall pre m c post, infoFileSave text main copy = pre ++ (m, c) :: post -> infoFileLoad parse m c = match pre with [] => old | _ => Ok new end.
Proof.
  intros A parse main copy old text new Ho Hn pre m c post E. unfold infoFileSave in E.
  assert (K : forall x, infoFileLoad parse (Some text) x = Ok new) by (intros x; unfold infoFileLoad; cbn; now rewrite Hn).
  destruct pre as [|p0 [|p1 [|p2 pre]]]; cbn in E; injection E; intros; subst; auto. destruct pre; discriminate.
Qed.
Print Assumptions C40_save_steps_load.

(** A put that is cut off and leaves a file that cannot be loaded does no harm either, as long as the copy was good. *)
Theorem C40_torn_write_loads : forall A (parse : str -> res A) old text torn a b e, parse old = Ok a -> parse text = Ok b -> parse torn = Err e ->
  infoFileLoad parse (Some torn) (Some old) = Ok a /\ infoFileLoad parse (Some text) (Some torn) = Ok b /\
  infoFileLoad parse None (Some text) = Ok b /\ infoFileLoad parse (Some text) None = Ok b /\ infoFileLoad parse (Some torn) (Some text) = Ok b.
Proof. intros A parse old text torn a b e H1 H2 H3. unfold infoFileLoad. cbn. rewrite H1, H2, H3. auto. Qed.
Print Assumptions C40_torn_write_loads.

(** When neither can be loaded the pair is reported missing exactly if both files are; one missing file does not hide the error of the other. *)
Theorem C40_load_error : forall A (parse : str -> res A) main copy e, infoFileLoad parse main copy = Err e -> (forall t, parse t <> Err EFileMissing) ->
  (e = EFileMissing <-> main = None /\ copy = None) /\
  match main, copy with
  | Some m, None => parse m = Err e
  | None, Some c => parse c = Err e
  | Some m, Some c => exists em ec, parse m = Err em /\ parse c = Err ec /\ (em = ec -> e = em) /\ (em <> ec -> e = EFileOpen)
  | None, None => True
  end.
Proof.
  intros A parse main copy e H Hp. unfold infoFileLoad in H. destruct main as [m|], copy as [c|]; cbn in H.
  - destruct (parse m) as [|em|] eqn:Em; try discriminate. destruct (parse c) as [|ec|] eqn:Ec; try discriminate. injection H as <-.
    assert (Nm : em <> EFileMissing) by (intros ->; exact (Hp _ Em)). assert (Nc : ec <> EFileMissing) by (intros ->; exact (Hp _ Ec)). split.
    + split; [|intros [K _]; discriminate]. intros K. exfalso. revert K. destruct em, ec; cbn; congruence.
    + exists em, ec. split; [reflexivity|]. split; [reflexivity|]. split; [intros ->; destruct ec; cbn; congruence|]. intros K. destruct em, ec; cbn; congruence.
  - destruct (parse m) as [|em|] eqn:Em; try discriminate. injection H as <-. assert (Nm : em <> EFileMissing) by (intros ->; exact (Hp _ Em)). split.
    + split; [|intros [K _]; discriminate]. intros K. exfalso. destruct em; cbn in K; congruence.
    + destruct em; cbn; congruence.
  - destruct (parse c) as [|ec|] eqn:Ec; try discriminate. injection H as <-. split; [|reflexivity]. split; [intros K; exfalso; rewrite K in Ec; exact (Hp _ Ec)|intros [_ K]; discriminate].
  - injection H as <-. split; [|exact I]. split; auto.
Qed.
Print Assumptions C40_load_error.

(** Files whose text is a number; 0 stands for a torn file. *)
Example C40_nontrivial : let parse (t : str) := match t with [c] => if c =? 0 then Err EChecksum else Ok c | _ => Err EFormat end in
  map (fun p => infoFileLoad parse (fst p) (snd p)) (infoFileSave [7] (Some [0]) (Some [3])) = [Ok 3; Ok 7; Ok 7] /\
  infoFileLoad parse (Some [0]) None = Err EChecksum /\ infoFileLoad parse (Some [0]) (Some [1;2]) = Err EFileOpen /\ infoFileLoad parse None None = Err EFileMissing.
Proof. vm_compute. auto. Qed.

(** ** C51 *)
(** A line that has been written is read back as the same key and value, or the file is refused (only if the key has a '=' and there are at least
    19 digits in a row): it is never taken for another key or value. *)
Theorem C51_line_read_back : forall section k s, section <> [] -> k <> [] -> valueText s ->
  iniLine true section (k ++ 61 :: s) = Ok (section, Some (k, s)) \/
  iniLine true section (k ++ 61 :: s) = Err EFormat /\ In 61 k /\ (manyDigits k \/ manyDigits s).
Proof. exact iniLine_kv. Qed.
Print Assumptions C51_line_read_back.
(** The second case does happen: the key x=99999999999999999999 with the value 1 cannot be read back. *)
Theorem C51_every_line_read_back_refuted : exists section k s, section <> [] /\ k <> [] /\ valueText s /\ iniLine true section (k ++ 61 :: s) = Err EFormat.
Proof.
  exists [115], (120 :: 61 :: repeat 57 20), [49]. split; [discriminate|]. split; [discriminate|]. split; [|vm_compute; reflexivity].
  exists (JUInt 1). split; [|split; [exact I|cbn; lia]]. apply (g_uint false [49] 1); [apply (ds_one 10 49 1); [apply (dec 1); lia|lia]|cbn; lia|lia].
Qed.
Print Assumptions C51_every_line_read_back_refuted.

Theorem C51_section_read_back : forall before section, section <> [] -> iniLine true before (91 :: section ++ [93]) = Ok (section, None).
Proof. exact iniLine_section. Qed.
Print Assumptions C51_section_read_back.

(** What is read from any line at all is in the line: the key before the first '=' that is followed by JSON and the value after it. *)
Theorem C51_line_sound : forall section line section' k v, iniLine true section line = Ok (section', Some (k, v)) ->
  section' = section /\ section <> [] /\ k <> [] /\ line = k ++ 61 :: v /\ jsonValidate v = Ok tt /\
  forall k' w, line = k' ++ 61 :: w -> (length k' < length k)%nat -> jsonValidate w = Err EJsonFormat.
Proof.
  intros section line section' k v H. pose proof (iniLine_first _ _ _ _ _ H) as [_ F]. apply iniLine_sound in H as (H1 & H2 & H3 & H4 & H5). auto 7.
Qed.
Print Assumptions C51_line_sound.

(** The lines are the text cut at its linefeeds. *)
Theorem C51_lines : forall text lines, textLines text lines <-> lines = iniLines text.
Proof. intros text lines. split; [apply lines_unique|]. intros ->. apply lines_text. Qed.
Print Assumptions C51_lines.

(** In a configuration file white space around the key and the value is not part of them. *)
Theorem C51_config_line : forall section k v w1 w2 w3 w4, section <> [] -> k <> [] -> trimmed k -> trimmed v -> ~ In 61 k -> hd 0 k <> 35 -> hd 0 k <> 91 ->
  wsp w1 -> wsp w2 -> wsp w3 -> wsp w4 -> iniLine false section (w1 ++ k ++ w2 ++ 61 :: w3 ++ v ++ w4) = Ok (section, Some (k, v)).
Proof. exact config_line. Qed.
Print Assumptions C51_config_line.

(** The key a=[b=x with the value {"k":"=1"}. *)
Example C51_nontrivial : let k := [97;61;91;98;61;120] in let s := [123;34;107;34;58;34;61;49;34;125] in
  valueText s /\ iniLine true [115] (k ++ 61 :: s) = Ok ([115], Some (k, s)).
Proof.
  split; [|vm_compute; reflexivity]. exists (JObj [([107], JStr [61;49])]). split; [|split; [repeat constructor; eexists _, _; (split; [reflexivity|lia])|cbn; lia]].
  apply (g_obj false [([107], JStr [61;49])] [34;107;34;58;34;61;49;34]); [|repeat constructor; intros []].
  apply (m_one false [107] (JStr [61;49]) (jsonQuote [61;49]) [] [] [] []); [split; cbn; lia|apply quote_gram|constructor..].
Qed.

(** ** C52 *)
(** What is saved loads as it was: the version, the passphrase, and every key and value in order. *)
Theorem C52_save_load : forall D (cb : D -> str -> str -> str -> res D) sha bufSize version cipher data d, goodData data ->
  linesShorter bufSize (infoSave sha version cipher data) ->
  infoNewLoad D cb sha bufSize (infoSave sha version cipher data) d = let* d := feed cb d (flatten data) in Ok (Some version, cipher, d).
Proof. exact roundtrip. Qed.
Print Assumptions C52_save_load.

(** A file is accepted only if the checksum in it is that of all its other entries, and exactly its data entries are handed on. *)
Theorem C52_accepted_is_checked : forall D (cb : D -> str -> str -> str -> res D) sha bufSize text d ver cip d',
  infoNewLoad D cb sha bufSize text d = Ok (ver, cip, d') ->
  exists l c, fileEntries text l /\ checksumIn l c /\ c = sha (checksumText (filter notChecksum l)) /\ feed cb d (filter isData l) = Ok d'.
Proof. intros D cb sha bufSize text d ver cip d' H. apply accepted_content in H as (l & c & b & H1 & H2 & H3 & H4 & _). exists l, c. auto. Qed.
Print Assumptions C52_accepted_is_checked.
(** A file of another format is not accepted. *)
Theorem C52_accepted_format : forall D (cb : D -> str -> str -> str -> res D) sha bufSize text d r, infoNewLoad D cb sha bufSize text d = Ok r ->
  exists l, fileEntries text l /\ forall v, In (sBackrest, kFormat, v) l -> jsonToVar v = Ok (JUInt 5).
Proof. exact accepted_format. Qed.
Print Assumptions C52_accepted_format.
Theorem C52_entries_unique : forall text l1 l2, fileEntries text l1 -> fileEntries text l2 -> l1 = l2.
Proof. exact file_unique. Qed.
Print Assumptions C52_entries_unique.

(** The text of the checksum determines the entries if no section has a quote in its name. *)
Theorem C52_checksum_covers_everything : forall l1 l2,
  Forall (fun e : str * str * str => fst (fst e) <> [] /\ ~ In 34 (fst (fst e)) /\ jsonValidate (snd e) = Ok tt) (l1 ++ l2) -> checksumText l1 = checksumText l2 -> l1 = l2.
Proof. intros l1 l2 H. apply Forall_app in H as [H1 H2]. now apply checksum_inj. Qed.
Print Assumptions C52_checksum_covers_everything.
(** So two accepted files with the same checksum have the same content, as far as the hash is free of collisions. *)
Theorem C52_same_checksum_same_content : forall D (cb : D -> str -> str -> str -> res D) sha bufSize t1 t2 l1 l2 d r1 r2,
  (forall a b, sha a = sha b -> a = b) ->
  infoNewLoad D cb sha bufSize t1 d = Ok r1 -> infoNewLoad D cb sha bufSize t2 d = Ok r2 ->
  fileEntries t1 l1 -> fileEntries t2 l2 -> Forall (fun e => ~ In 34 (fst (fst e))) (l1 ++ l2) ->
  (forall c c', checksumIn l1 c -> checksumIn l2 c' -> c = c') -> filter notChecksum l1 = filter notChecksum l2 /\ r1 = r2.
Proof. exact same_content. Qed.
Print Assumptions C52_same_checksum_same_content.
(** The names of the sections are not escaped: with quotes in them two files with different entries have the same checksum, whatever the hash. *)
Theorem C52_quoted_section_refuted : exists t1 t2 l1 l2, fileEntries t1 l1 /\ fileEntries t2 l2 /\ l1 <> l2 /\
  checksumText (filter notChecksum l1) = checksumText (filter notChecksum l2).
Proof.
  (* [a] k=1 [b] k=2 and [a":{"k":1},"b] k=2 *)
  pose (q := [97;34;58;123;34;107;34;58;49;125;44;34;98] : str).
  assert (E1 : forall s v ls l, s <> [] -> jsonValidate [v] = Ok tt -> iniEntries s ls l -> iniEntries s ([107;61;v] :: ls) ((s, [107], [v]) :: l)).
  { intros s v ls l Hs Hv Hl. apply (ie_value s [107] [v] ls l Hs); [discriminate| |exact Hv| |exact Hl].
    - intros (n & E). discriminate.
    - intros k' w E L. exfalso. destruct k'; [discriminate|cbn in L; lia]. }
  assert (F : forall ls, Forall (fun l => ~ In 10 l) ls -> textLines (flat_map (fun l => l ++ [10]) ls) ls) by (intros ls H; split; [exact H|now left]).
  exists (flat_map (fun l => l ++ [10]) [[91;97;93]; [107;61;49]; [91;98;93]; [107;61;50]]), (flat_map (fun l => l ++ [10]) [91 :: q ++ [93]; [107;61;50]]),
    [([97], [107], [49]); ([98], [107], [50])], [(q, [107], [50])].
  split; [|split; [|split; [discriminate|reflexivity]]]; eexists; (split; [apply F; repeat constructor; cbn; lia|]).
  - apply (ie_section [] [97]); [discriminate|]. apply E1; [discriminate|reflexivity|]. apply (ie_section [97] [98]); [discriminate|]. apply E1; [discriminate|reflexivity|]. constructor.
  - apply (ie_section [] q); [discriminate|]. apply E1; [discriminate|reflexivity|]. constructor.
Qed.
Print Assumptions C52_quoted_section_refuted.

(** One section with one key, a passphrase, and a hash that keeps the text: the file loads, and with the value changed it does not. *)
Example C52_nontrivial : let data := [([97], [([107;61], [49])]); ([100;98], [([107], [34;120;34])])] in
  let sha (s : str) := s in let cb (d : list (str * str * str)) s k v := Ok (d ++ [(s, k, v)]) in
  goodData data /\ infoNewLoad _ cb sha 1000 (infoSave sha [50] (Some [112]) data) [] = Ok (Some [50], Some [112], flatten data) /\ infoNewLoad _ cb sha 1000 (map (fun c => if c =? 49 then 50 else c) (firstn 30 (infoSave sha [50] (Some [112]) data)) ++ skipn 30 (infoSave sha [50] (Some [112]) data)) [] = Err EChecksum.
Proof.
  split; [|vm_compute; auto]. split; [repeat constructor|].
  assert (V1 : valueText [49]). { exists (JUInt 1). split; [|split; [exact I|cbn; lia]]. apply (g_uint false [49] 1); [apply (ds_one 10 49 1); [apply (dec 1); lia|lia]|cbn; lia|lia]. }
  assert (M : forall s : str, (length s < 19)%nat -> ~ manyDigits s). { intros s L (p & d & r & -> & _ & K). rewrite !app_length in L. lia. }
  constructor; [|constructor; [|constructor]]; cbn [fst snd]; (split; [discriminate|]); (split; [cbn; lia|]); (split; [discriminate|]); (split; [discriminate|]); constructor; try constructor; cbn [fst snd].
  - discriminate.
  - split; [cbn; lia|]. split; [exact V1|]. right. split; apply M; cbn; lia.
  - discriminate.
  - split; [cbn; lia|]. split; [exact (quote_value [120])|]. left. cbn. lia.
Qed.
