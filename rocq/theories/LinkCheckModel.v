(** Destinations of links.  Models src/info/manifest/link.c.inc, manifestTargetPath() of src/info/manifest/store.c.inc, manifestPathPg() of
    src/info/manifest/manifest.c and the path functions of src/common/type/string.c they use. *)
From Verif Require Import Base Str ManifestPackModel ManifestModel.
Open Scope Z_scope.

(** stringList.c:35-76 with delimiter "/" *)
Fixpoint splitSlash (s : str) : list str :=
  match s with
  | [] => [[]]
  | c :: r => if c =? 47 then [] :: splitSlash r else match splitSlash r with h :: t => (c :: h) :: t | [] => [[c]] end
  end.
(** stringList.c strLstJoin() with delimiter "/" *)
Fixpoint joinSlash (l : list str) : str :=
  match l with [] => [] | [a] => a | a :: r => a ++ 47 :: joinSlash r end.
(** string.c:824-825, 351-352: what is left when characters other than / are removed from the end *)
Fixpoint dropBase (r : str) : str := match r with [] => [] | c :: r' => if c =? 47 then r else dropBase r' end.
Definition upToSlash (s : str) : str := rev (dropBase (rev s)).
(** string.c:813-832 *)
Definition strPath (s : str) : str := let e := upToSlash s in if (length e <=? 1)%nat then e else removelast e.
(** string.c:328-355 *)
Definition strBase (s : str) : str := skipn (length (upToSlash s)) s.
(** strstr() != NULL *)
Fixpoint containsSub (sub s : str) : bool :=
  strBeginsWith s sub || match s with [] => false | _ :: r => containsSub sub r end.

(** string.c:868-897, the loop over the parts of the path *)
Fixpoint absLoop (pathList baseList : list str) : res (list str) :=
  match pathList with
  | [] => Ok baseList
  | [] :: [] => Ok baseList
  | [] :: _ => Err EAssert
  | part :: rest =>
      if strEqb part [46;46] then
        match rev baseList with
        | [] => Err EAssert
        | [] :: _ => Err EAssert
        | _ => absLoop rest (removelast baseList)
        end
      else if strEqb part [46] then absLoop rest baseList
      else absLoop rest (baseList ++ [part])
  end.
(** string.c:834-919 *)
Definition strPathAbsolute (s base : str) : res str :=
  let* result :=
    if strBeginsWith s [47] then Ok s
    else if negb (strBeginsWith base [47]) then Err EAssert
    else
      let* l := absLoop (splitSlash s) (splitSlash base) in
      Ok (if (length l =? 1)%nat then [47] else joinSlash l) in
  if containsSub [47;46;46] result || containsSub [47;47] result then Err EAssert else Ok result.

(** manifest.h:27: MANIFEST_TARGET_PGTBLSPC *)
Definition pgTblspc : str := [112;103;95;116;98;108;115;112;99].
(** manifest.c:817-841: NULL for the data directory.  The ASSERT() for other names is left out. *)
Definition manifestPathPg (s : str) : option str :=
  if strBeginsWith s (pgData ++ [47]) then Some (skipn (length pgData + 1) s)
  else if negb (strEqb s pgData) then Some s
  else None.
(** store.c.inc:706-723 *)
Definition manifestTargetFind (ts : list mtarget) (name : str) : res mtarget :=
  match find (fun t => strEqb (mtName t) name) ts with Some t => Ok t | None => Err EAssert end.
(** store.c.inc:725-762; strPath(NULL) is undefined *)
Definition manifestTargetPath (ts : list mtarget) (t : mtarget) : res str :=
  if strBeginsWith (mtPath t) [47] then Ok (mtPath t)
  else
    match manifestPathPg (mtName t) with
    | None => UB
    | Some s =>
        let p := strPath s in
        let p := if (length p =? 0)%nat then p else p ++ [47] in
        let* base := manifestTargetFind ts pgData in
        strPathAbsolute (p ++ mtPath t) (mtPath base)
    end.

(** link.c.inc:9-14; targetIdx is only for messages *)
Record litem := mkLitem { liPath : str; liFile : option str }.
(** link.c.inc:121-144 and 147-170: the first other link that is not a file link decides.  [bad] is the comparison. *)
Fixpoint checkNext (bad : str -> bool) (l : list litem) : bool :=
  match l with
  | [] => true
  | i :: r => match liFile i with Some _ => checkNext bad r | None => negb (bad (liPath i)) end
  end.
(** lstFindIdx() *)
Fixpoint findIdx (p : str) (l : list litem) : option nat :=
  match l with [] => None | i :: r => if strEqb (liPath i) p then Some O else option_map S (findIdx p r) end.
(** link.c.inc:34-182.  EOther is LinkDestinationError.  basePath is found anew each time. *)
Definition manifestLinkCheckOne (ts : list mtarget) (l : list litem) (t : mtarget) : res (list litem) :=
  if mtIsPath t then Ok l
  else
    let* p := manifestTargetPath ts t in
    let path := p ++ [47] in
    let* base := manifestTargetFind ts pgData in
    let* b := manifestTargetPath ts base in
    if strBeginsWith path (b ++ [47]) then Err EOther
    else
      match find (fun i => strEqb (liPath i) path) l with
      | Some i =>
          match mtFile t, liFile i with
          | Some f, Some g => if strEqb f g then Err EOther else Ok l
          | _, _ => Err EOther
          end
      | None =>
          let l := sortBy liPath strLeb (l ++ [mkLitem path (mtFile t)]) in
          match findIdx path l with
          | None => Err EAssert
          | Some k =>
              match mtFile t with
              | Some _ => Ok l
              | None =>
                  if negb (checkNext (fun q => strBeginsWith path q) (rev (firstn k l))) then Err EOther
                  else if negb (checkNext (fun q => strBeginsWith q path) (skipn (S k) l)) then Err EOther
                  else Ok l
              end
          end
      end.
(** link.c.inc:184-205 *)
Fixpoint linkCheckLoop (ts : list mtarget) (l : list litem) (todo : list mtarget) : res unit :=
  match todo with
  | [] => Ok tt
  | t :: r => let* l := manifestLinkCheckOne ts l t in linkCheckLoop ts l r
  end.
Definition manifestLinkCheck (ts : list mtarget) : res unit := linkCheckLoop ts [] ts.
