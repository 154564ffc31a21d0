(** Properties of QTIMigration/fixwinchars.py: C33. *)
From Verif Require Import Py Dec XmlUtils XmlSpec ImscpSpec FixWin FixWinProofs.

(** C33: each octet of a file that is treated is written as itself or as the hexadecimal
    reference to the character it means in Windows code page 1252; nothing else is
    changed. *)
Theorem C33_pieces ascii force data : octets data -> treated force data ->
  exists pieces, Forall2 (fixed_as ascii) data pieces /\ FixFile ascii force data = List.concat pieces.
Proof.
  intros H T. exists (map (fix_char ascii) data).
  exact (conj (fix_pieces ascii data H) (fix_file_treated ascii force data T H)).
Qed.
Print Assumptions C33_pieces.
(** Files that are not treated are left alone *)
Theorem C33_untreated ascii force data : ~ treated force data -> FixFile ascii force data = data.
Proof. exact (fix_file_skip ascii force data). Qed.
Print Assumptions C33_untreated.
(** No octet with a Windows meaning survives, and in ASCII mode all the output is ASCII *)
Theorem C33_clean ascii force data : octets data -> treated force data ->
  Forall (fun c => ~ windows_char c /\ (ascii = true -> 0 <= c < 128)) (FixFile ascii force data).
Proof. intros H T. rewrite (fix_file_treated ascii force data T H). exact (fix_clean ascii data H). Qed.
Print Assumptions C33_clean.
(** Fixing twice is fixing once *)
Theorem C33_idempotent ascii force data : octets data ->
  FixFile ascii force (FixFile ascii force data) = FixFile ascii force data.
Proof. exact (fix_file_idem ascii force data). Qed.
Print Assumptions C33_idempotent.
Example C33_ex : let d := lit "<a>" ++ [0x93; 0x41; 0xE9; 0x9F; 0x81] in
  octets d /\ treated false d /\ FixFile false false d = lit "<a>&#x201C;A" ++ [0xE9] ++ lit "&#x178;" ++ [0x81] /\
  FixFile true false d = lit "<a>&#x201C;A&#xE9;&#x178;&#x81;".
Proof.
  split; [unfold octets; vm_compute lit; cbn [app]; repeat (apply Forall_cons; [cbv beta; lia|]); apply Forall_nil|].
  split; [|split; reflexivity].
  exists 60, 97, 62, 0x93, [0x41; 0xE9; 0x9F; 0x81]. split; [reflexivity|]. lia.
Qed.
