(** Responses of an HTTP server: status, headers and content.  Models src/common/io/http/response.c:104-205 (httpResponseRead), 228-282
    (httpResponseStatusRead), 287-362 (httpResponseHeaderRead) and 387-436 (httpResponseNew).
    The session is the list of the bytes the server still sends before it closes the connection.  ioReadLine() and ioRead() (read.c:164-198, 269-351)
    are taken on this list: whatever parts the bytes arrive in, a line is found if its linefeed is among the next ioBufferSize() bytes, and eof is
    seen by a read that asks for more than there is.  contentRead reads the content through httpResponseRead(); every call has a buffer with room for
    [n] bytes, n > 0.  Text is a list of bytes that may have zero bytes: functions on a C string stop there.
    Not modelled: multipart content, the cache of the content, the session kept or closed at the end, unexpected ends of a TLS session that are
    ignored (.ignoreUnexpectedEof), and the store of the headers. *)
From Verif Require Import Base Str ConvertModel NumModel SpoolModel RegNameModel OptSizeModel.
From Coq Require Import String List.
Open Scope Z_scope. Open Scope list_scope.

(** What strZ() shows to C functions: the bytes before the first zero byte. *)
Fixpoint cz (s : str) : str := match s with [] => [] | c :: r => if c =? 0 then [] else c :: cz r end.
(** string.c:1026-1046 strChr: the index of the character in the C string *)
Fixpoint idx (c : Z) (s : str) : option nat :=
  match s with [] => None | x :: r => if x =? c then Some 0%nat else option_map S (idx c r) end.
Definition strChrZ (s : str) (c : Z) : option nat := idx c (cz s).

(** read.c:269-351 ioReadLine: the text before the next linefeed and what follows it; [max] is ioBufferSize().  FileReadError if the buffer is full
    without a linefeed or the end comes first. *)
Definition readLine (max : nat) (s : str) : res (str * str) :=
  match idx 10 s with
  | Some i => if (i <? max)%nat then Ok (firstn i s, skipn (S i) s) else Err EFileRead
  | None => Err EFileRead
  end.

(** response.c:41-58 HttpResponse: the members that direct the reading *)
Record resp := mkResp { rChunked : bool; rSizeSet : bool; rSize : Z; rRemaining : Z; rClose : bool; rEof : bool }.
Definition setEof (r : resp) (e : bool) : resp := mkResp (rChunked r) (rSizeSet r) (rSize r) (rRemaining r) (rClose r) e.
Definition setRemaining (r : resp) (n : Z) : resp := mkResp (rChunked r) (rSizeSet r) (rSize r) n (rClose r) (rEof r).

(** response.c:143-149: the size in the header of a chunk *)
Definition chunkSize (line : str) : res Z :=
  let h := strTrim line in
  let h := match strChrZ h 59 with Some i => strTrim (firstn i h) | None => h end in
  cvtZToUInt64 16 (cz h).
(** response.c:155: lines up to and including a blank one *)
Fixpoint trailers (max fuel : nat) (s : str) : res str :=
  match fuel with
  | O => UB
  | S fuel => let* p := readLine max s in let (l, s) := p : str * str in match strTrim l with [] => Ok s | _ => trailers max fuel s end
  end.
(** response.c:140-158: the header of the next chunk, if the last one is used up *)
Definition nextChunk (max : nat) (r : resp) (s : str) : res (resp * str) :=
  if rChunked r && (rRemaining r =? 0) then
    let* p := readLine max s in
    let (l, s) := p : str * str in
    let* n := chunkSize l in
    if n =? 0 then let* s := trailers max (S (length s)) s in Ok (setEof (setRemaining r 0) true, s)
    else Ok (setRemaining r n, s)
  else Ok (r, s).
(** response.c:160-178: as much as is wanted and remains; an end before is an error *)
Definition readData (r : resp) (s : str) (n : nat) : res (str * resp * str) :=
  if 0 <? rRemaining r then
    let k := Z.to_nat (Z.min (Z.of_nat n) (rRemaining r)) in
    let got := firstn k s in
    if (length s <? k)%nat then Err EFileRead else Ok (got, setRemaining r (rRemaining r - Z.of_nat (length got)), skipn k s)
  else Ok ([], r, s).
(** response.c:180-193: the line after a chunk, or the end of content with a size *)
Definition afterData (max : nat) (r : resp) (s : str) : res (resp * str) :=
  if rRemaining r =? 0 then
    if rChunked r && negb (rEof r) then let* p := readLine max s in Ok (r, snd p)
    else Ok (setEof r true, s)
  else Ok (r, s).
(** response.c:137-196: the loop; [n] is the room left in the buffer *)
Fixpoint readLoop (max fuel : nat) (r : resp) (s : str) (n : nat) : res (str * resp * str) :=
  match fuel with
  | O => UB
  | S fuel =>
      let* p := nextChunk max r s in
      let (r, s) := p : resp * str in
      let* p := readData r s n in
      let '(d, r, s) := p in
      let* p := afterData max r s in
      let (r, s) := p : resp * str in
      let n := (n - length d)%nat in
      if ((n =? 0)%nat || rEof r)%bool then Ok (d, r, s)
      else let* p := readLoop max fuel r s n in let '(d2, r, s) := p in Ok (d ++ d2, r, s)
  end.
(** response.c:104-205 httpResponseRead *)
Definition httpResponseRead (max : nat) (r : resp) (s : str) (n : nat) : res (str * resp * str) :=
  if rEof r then Ok ([], r, s)
  else if rClose r && negb (rChunked r) && (rSize r =? 0) then Ok (firstn n s, setEof r (length s <? n)%nat, skipn n s)
  else readLoop max (S (length s)) r s n.
(** Calls one after the other, with these buffers, and all they read. *)
Fixpoint reads (max : nat) (r : resp) (s : str) (ns : list nat) : res (str * resp * str) :=
  match ns with
  | [] => Ok ([], r, s)
  | n :: ns =>
      let* p := httpResponseRead max r s n in
      let '(d, r, s) := p in
      let* p := reads max r s ns in
      let '(d2, r, s) := p in
      Ok (d ++ d2, r, s)
  end.

(** response.c:228-282 httpResponseStatusRead: the code, the reason, and whether the version is 1.0.  sizeof(HTTP_VERSION) is 9. *)
Definition statusRead (max : nat) (s : str) : res (Z * str * bool * str) :=
  let* p := readLine max s in
  let (l, s) := p : str * str in
  if negb (strEndsWith l [13]) then Err EFormat
  else
    let st := firstn (length l - 1) l in
    if (length st <? 13)%nat then Err EFormat
    else
      let v10 := strBeginsWith st (txt "HTTP/1.0") in
      if negb v10 && negb (strBeginsWith st (txt "HTTP/1.1")) then Err EFormat
      else
        let st := skipn 9 st in
        match strChrZ st 32 with
        | Some 3%nat => let* code := cvtZToUInt 10 (firstn 3 st) in Ok (code, skipn 4 st, v10, s)
        | _ => Err EFormat
        end.

(** response.c:303-345: what one header, trimmed and not empty, does *)
Definition header1 (r : resp) (h : str) : res resp :=
  match strChrZ h 58 with
  | None => Err EFormat
  | Some i =>
      let key := strLower (strTrim (firstn i h)) in
      let value := strTrim (skipn (S i) h) in
      let* r :=
        if strEqb key (txt "transfer-encoding") then
          if strEqb (strLower value) (txt "chunked") then Ok (mkResp true (rSizeSet r) (rSize r) (rRemaining r) (rClose r) (rEof r)) else Err EFormat
        else Ok r in
      let* r :=
        if strEqb key (txt "content-length") then
          let* n := cvtZToUInt64 10 (cz value) in Ok (mkResp (rChunked r) true n n (rClose r) (rEof r))
        else Ok r in
      Ok (if strEqb key (txt "connection") && strEqb (strLower value) (txt "close")
          then mkResp (rChunked r) (rSizeSet r) (rSize r) (rRemaining r) true (rEof r) else r)
  end.
(** response.c:287-362 httpResponseHeaderRead with allowEof false *)
Fixpoint headerLoop (max fuel : nat) (r : resp) (s : str) : res (resp * str) :=
  match fuel with
  | O => UB
  | S fuel =>
      let* p := readLine max s in
      let (l, s) := p : str * str in
      match strTrim l with
      | [] => Ok (r, s)
      | h => let* r := header1 r h in headerLoop max fuel r s
      end
  end.
Definition headerRead (max : nat) (r : resp) (s : str) : res (resp * str) :=
  let* p := headerLoop max (S (length s)) r s in
  if rChunked (fst p) && rSizeSet (fst p) then Err EFormat else Ok p.

(** response.c:387-436 httpResponseNew: code, reason, and the response ready to read.  [head]: the verb is HEAD. *)
Definition httpResponseNew (max : nat) (head : bool) (s : str) : res (Z * str * resp * str) :=
  let* p := statusRead max s in
  let '(code, reason, close, s) := p in
  let* p := headerRead max (mkResp false false 0 0 close false) s in
  let (r, s) := p : resp * str in
  let exist := (rChunked r || (0 <? rSize r) || rClose r) && negb head in
  Ok (code, reason, setEof r (negb exist), s).
