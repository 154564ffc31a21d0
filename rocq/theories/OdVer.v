(** Model of the negotiation of the protocol version: odata2/core.py 1552-1599
    (ParseDataServiceVersion, ParseMaxDataServiceVersion) and odata2/server.py 953-982
    (CheckCapabilityNegotiation), with the answers of 183-241 *)
From Verif Require Import Py.
Open Scope Z_scope.
Open Scope list_scope.

(** str.split with one character *)
Fixpoint split_at (c : Z) (cur s : str) : list str :=
  match s with
  | [] => [cur]
  | d :: r => if d =? c then cur :: split_at c [] r else split_at c (cur ++ [d]) r
  end.
Definition split (c : Z) (s : str) : list str := split_at c [] s.
(** rfc2616_core.py 45-55 IsDIGITS, and int() of such a string *)
Definition digit (c : Z) : bool := (48 <=? c) && (c <=? 57).
Definition IsDIGITS (s : str) : bool := match s with [] => false | _ => forallb digit s end.
Definition int (s : str) : Z := fold_left (fun n c => 10 * n + (c - 48)) s 0.

Section Negotiation.
(** ParameterParser(src).RequireToken(): the first token of the value, after white space, or [None]
    for SyntaxError.  The rest of the value is not used by the server. *)
Variable token : str -> option str.
(** core.py 1561-1567; [None] is SyntaxError *)
Definition version_of (src : str) : option (Z * Z) :=
  match token src with
  | None => None
  | Some t =>
      match split 46 t with
      | [a; b] => if IsDIGITS a && IsDIGITS b then Some (int a, int b) else None
      | _ => None
      end
  end.
Definition ParseDataServiceVersion (src : str) : option (Z * Z) := version_of src.
(** core.py 1584-1595 *)
Definition ParseMaxDataServiceVersion (src : str) : option (Z * Z) :=
  match split 59 src with s :: _ => version_of s | [] => None end.

(** The answer: the request is handled, with the major version in the header of the response and in
    the request; or 400, or 500 for an exception that is no ValueError *)
Inductive answer := Handled (major : Z) | Mismatch | Unexpected.
(** server.py 953-982, 187-189 and 237-241 *)
Definition Negotiate (version maxVersion : option str) : answer :=
  match match version with Some s => ParseDataServiceVersion s | None => Some (2, 0) end with
  | None => Unexpected
  | Some (major, minor) =>
      match match maxVersion with Some s => ParseMaxDataServiceVersion s | None => Some (major, minor) end with
      | None => Unexpected
      | Some (maxMajor, maxMinor) =>
          if (2 <? major) || ((major =? 2) && (0 <? minor)) then Mismatch
          else if 2 <=? maxMajor then Handled 2
          else Handled 1
      end
  end.
End Negotiation.
