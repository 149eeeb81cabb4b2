(** Text of HTTP requests: escapes, queries and dates.  Models src/common/io/http/common.c:22-149 and src/common/io/http/query.c:42-275.
    A String is its bytes, 0 to 255.  char is signed on most platforms, so bytes of 128 and more are negative in the comparisons of common.c:131-132:
    they are in none of the ranges either way.  ASSERT() is not in production builds.  Null strings are not modelled. *)
From Verif Require Import Base Str ConvertModel NumModel LsnModel RegNameModel TimeModel JsonModel SpoolModel HttpModel.
From Coq Require Import String List.
Open Scope Z_scope. Open Scope list_scope.

(** common.c:131-132: reproduced verbatim *)
Definition verbatim (path : bool) (c : Z) : bool :=
  ((65 <=? c) && (c <=? 90)) || ((97 <=? c) && (c <=? 122)) || ((48 <=? c) && (c <=? 57)) || (c =? 95) || (c =? 45) || (c =? 126) || (c =? 46) || (path && (c =? 47)).
(** "%02X" *)
Definition hexUp (d : Z) : Z := if d <? 10 then 48 + d else 55 + d.
(** common.c:108-149 httpUriEncode *)
Definition uriEncode (path : bool) (s : str) : str :=
  flat_map (fun c => if verbatim path c then [c] else [37; hexUp (c / 16); hexUp (c mod 16)]) s.

(** common.c:70-105 httpUriDecode; the number of the two characters fits a char *)
Fixpoint uriDecode (s : str) : res str :=
  match s with
  | [] => Ok []
  | c :: r =>
      if c =? 37 then
        match r with
        | a :: b :: r => let* v := cvtZToUInt 16 (cz [a; b]) in let* t := uriDecode r in Ok (v :: t)
        | _ => Err EFormat
        end
      else let* t := uriDecode r in Ok (c :: t)
  end.

(** An HttpQuery: keys and values in the order they were added. *)
Definition query := list (str * str).
(** query.c:125-148 httpQueryAdd *)
Definition queryAdd (q : query) (k v : str) : res query := match kvGet q k with Some _ => Err EAssert | None => Ok (kvPut q k v) end.
(** query.c:205-222 httpQueryPut; 151-163 httpQueryGet *)
Definition queryPut (q : query) (k v : str) : query := kvPut q k v.
Definition queryGet (q : query) (k : str) : option str := kvGet q k.
(** query.c:179-202 httpQueryMerge *)
Fixpoint queryMerge (q : query) (from : query) : res query :=
  match from with [] => Ok q | (k, v) :: r => let* q := queryAdd q k v in queryMerge q r end.
(** query.c:42-91 httpQueryNewStr; strLstNewSplitZ() works on the C string *)
Fixpoint queryPairs (q : query) (l : list str) : res query :=
  match l with
  | [] => Ok q
  | p :: r =>
      match splitOn 61 (cz p) with
      | [k; v] => let* k := uriDecode k in let* v := uriDecode v in let* q := queryAdd q k v in queryPairs q r
      | _ => Err EFormat
      end
  end.
Definition queryNewStr (s : str) : res query :=
  let s := if strBeginsWith s (txt "?") then skipn 1 s else s in
  queryPairs [] (splitOn 38 (cz s)).
(** query.c:166-176 httpQueryList and 240-275 httpQueryRender: None is NULL.  [redact k]: param.redact is set and the key is in the redact list. *)
Fixpoint joinAmp (l : list str) : str := match l with [] => [] | [x] => x | x :: r => x ++ 38 :: joinAmp r end.
Definition queryRender (redact : str -> bool) (q : query) : option str :=
  match q with
  | [] => None
  | _ =>
      Some (joinAmp (map (fun k => uriEncode false k ++ 61 ::
                            (if redact k then txt "<redacted>" else uriEncode false (match queryGet q k with Some v => v | None => [] end)))
                         (strLstSortAsc (map fst q))))
  end.

(** common.c:16-20 *)
Definition monthNames : list str := map txt ["Jan"; "Feb"; "Mar"; "Apr"; "May"; "Jun"; "Jul"; "Aug"; "Sep"; "Oct"; "Nov"; "Dec"]%string.
Definition dayNames : list str := map txt ["Sun"; "Mon"; "Tue"; "Wed"; "Thu"; "Fri"; "Sat"]%string.
Fixpoint findIdx (m : str) (l : list str) : option Z :=
  match l with [] => None | x :: r => if strEqb m x then Some 0 else option_map Z.succ (findIdx m r) end.
(** common.c:22-49 httpDateToTime.  The text is read at fixed places and its length is not checked: a place after its terminator is undefined.  The
    numbers are arguments of a call, so they may be read in any order. *)
Definition dateToTime (s : str) : res Z :=
  if (length s <? 8)%nat then UB
  else match findIdx (firstn 3 (skipn 8 s)) monthNames with
       | None => Err EFormat
       | Some m =>
           if (length s <? 24)%nat then UB
           else
             let part o n := cvtZToInt 10 (cz (firstn n (skipn o s))) in
             let* y := part 12%nat 4%nat in
             let* d := part 5%nat 2%nat in
             let* h := part 17%nat 2%nat in
             let* mi := part 20%nat 2%nat in
             let* se := part 23%nat 2%nat in
             epochFromParts y (m + 1) d h mi se 0
       end.
(** "%02d", "%04d" of numbers with no more digits *)
Definition dec2 (v : Z) : str := [48 + v / 10; 48 + v mod 10].
Definition dec4 (v : Z) : str := dec2 (v / 100) ++ dec2 (v mod 100).
(** common.c:51-67 httpDateFromTime with what gmtime_r() gives: day of the week, day, month from 0, year, hour, minute, second *)
Definition dateFromParts (wday mday mon year hour minute second : Z) : str :=
  nth (Z.to_nat wday) dayNames [] ++ txt ", " ++ dec2 mday ++ txt " " ++ nth (Z.to_nat mon) monthNames [] ++ txt " " ++ dec4 year ++ txt " " ++
  dec2 hour ++ txt ":" ++ dec2 minute ++ txt ":" ++ dec2 second ++ txt " GMT".
