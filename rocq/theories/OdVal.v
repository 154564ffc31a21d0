(** Model of reading and writing a property by /$value: odata2/server.py 120-127, 531-548 (the
    methods), 833-870 (ReadDereferencedValue), 872-892 (ReturnDereferencedValue), 237-241 (the
    answers), odata2/csdl.py 945-956 (the literal of a binary value).

    Simplifications.
    - Of the parameters of a media type only the charset is modelled.
    - The Content-Type of a request is a media type or absent; one that cannot be parsed is left out.
    - The entity is stored without error after the value has been changed.
    - ETag and the messages of errors are left out. *)
From Verif Require Import Py Iso Dec Shapes XmlChars Xsd Imscp Uri OdExpr OdUri.
Open Scope Z_scope.
Open Scope list_scope.

Record media := mkMedia { m_type : str; m_subtype : str; m_charset : option str }.
(** server.py 120-127 *)
Definition octets : media := mkMedia (lit "application") (lit "octet-stream") None.
Definition octets2 : media := mkMedia (lit "octet") (lit "stream") None.
Definition DereferenceTypes : list media := [mkMedia (lit "text") (lit "plain") (Some (lit "utf-8")); octets; octets2].
Definition StreamTypes : list media := [octets; octets2].
(** MediaRange.FromString("text/plain").MatchMediaType: rfc2616_headers.py 101-115 *)
Definition text_plain (m : media) : bool :=
  str_eqb (lower (m_type m)) (lit "text") && str_eqb (lower (m_subtype m)) (lit "plain").
(** csdl.py 945-956, "%02X" *)
Definition hex1 (d : Z) : Z := if d <? 10 then 48 + d else 55 + d.
Definition hex_literal (s : str) : str := flat_map (fun b => [hex1 (b / 16); hex1 (b mod 16)]) s.

Section Values.
(** Values that are not binary, with unicode() and SetFromLiteral (a ValueError is [None]) *)
Variable V : Type.
Variable text : V -> str.
Variable literal : str -> option V.
(** ContentNegotiation *)
Variable select : list media -> option media.
(** The other codecs, by the name; [None] is LookupError *)
Variable codec : str -> option (str -> result str).

Inductive value := Null | Binary (b : str) | Simple (v : V).
Inductive reply := Page (m : media) (data : str) | NotAcceptable | Missing.
(** server.py 531-536 and 872-892; [mType] is the MimeType of the property *)
Definition Get (mType : option media) (v : value) : reply :=
  let send types data := match select types with None => NotAcceptable | Some m => Page m data end in
  match v, mType with
  | Null, _ => Missing
  | Binary b, None => send StreamTypes b
  | Simple x, None => send DereferenceTypes (utf8 (text x))
  | Binary b, Some m => send [m] (utf8 (hex_literal b))
  | Simple x, Some m => send [m] (utf8 (text x))
  end.

Definition decode (name data : str) : option (result str) :=
  if str_eqb (lower name) (lit "utf-8") then Some (of_utf8 data)
  else if str_eqb (lower name) (lit "iso-8859-1") then Some (Ok data)
  else match codec (lower name) with None => None | Some f => Some (f data) end.

(** The status of the answer *)
Inductive status := NoContent204 | BadRequest400 | NotFound404 | Failure500.
(** server.py 540-550 and 833-870.  Without a Content-Type [requestType] is not bound;
    DeferenceBinaryRanges is not defined; MediaRange.FromString of a media type that is no string
    raises; InvalidData is no ValueError. *)
Definition Put (mType : option media) (contentType : option media) (data : str) (v : value) : status * value :=
  match v with
  | Null => (NotFound404, v)
  | _ =>
      match contentType with
      | None => (Failure500, v)
      | Some r =>
          match mType, v with
          | Some _, _ => (Failure500, v)
          | None, Simple _ =>
              if text_plain r then
                let read s := match literal s with None => (BadRequest400, v) | Some x => (NoContent204, Simple x) end in
                if str_eqb (m_type r) (lit "text") then
                  match decode match m_charset r with Some c => c | None => lit "iso-8859-1" end data with
                  | None => (Failure500, v)
                  | Some (Err _) => (BadRequest400, v)
                  | Some (Ok s) => read s
                  end
                else read data
              else (Failure500, v)
          | None, _ => (Failure500, v)
          end
      end
  end.
End Values.
Arguments Null {V}.
Arguments Binary {V}.
Arguments Simple {V}.
