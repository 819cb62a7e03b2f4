(** How received messages of variable size are taken apart: [recv] into a vector gives the vector the size of the message (cryptoTools, taken as documented).
    A message is the list of its bytes. [UB]: bytes behind the end of the vector are read. *)
From Verif Require Import Base.
Local Open Scope nat_scope.

(** [fromBytes(iter)] or [memcpy(.., iter, len)] with [iter] at offset [off]: for example EcdhPsiSender.cpp:116, DktMPsiSender.cpp:216-218, PrtySender.cpp:222. *)
Definition readAt (buf : list N) (off len : nat) : outcome (list N) := if off + len <=? length buf then Done (take len (drop off buf)) else UB.
(** [cnt] reads of [sz] bytes, each followed by [iter += sz]: EcdhPsiSender.cpp:114-116, EcdhPsiReceiver.cpp:125-127, DktMPsiReceiver.cpp:353-357, 423-426,
    DktMPsiSender.cpp:328-331, PrtySender.cpp:220-224, 855-857, 903-905. *)
Fixpoint readMany (buf : list N) (off sz cnt : nat) : outcome (list (list N)) :=
  match cnt with
  | O => Done []
  | S cnt' =>
      match readAt buf off sz with
      | Done r => match readMany buf (off + sz) sz cnt' with Done l => Done (r :: l) | _ => UB end
      | _ => UB
      end
  end.
(** The same behind the check [buff.size() != expected] that throws: EcdhPsiSender.cpp:106-110, EcdhPsiReceiver.cpp:115-119, DktMPsiSender.cpp:321-325,
    DktMPsiReceiver.cpp:335, 348-350, 418-420. *)
Definition checkedMany (buf : list N) (sz cnt : nat) : outcome (list (list N)) := if negb (length buf =? cnt * sz) then Thrown [] else readMany buf 0 sz cnt.

(** ECDH, the points of the other party: EcdhPsiSender.cpp:105-116, EcdhPsiReceiver.cpp:114-127; [n]: [subsetInputSize], [sz]: [sizeBytes()]. *)
Definition ecdhPoints (n sz : nat) (buf : list N) : outcome (list (list N)) := checkedMany buf sz n.
(** ECDH, the masks: EcdhPsiReceiver.cpp:194-218: at each mask four bytes are read ([idx_yba], line 197), and the mask itself is compared when a
    candidate was found (line 209). Simplification: it is compared always. *)
Fixpoint maskReads (buf : list N) (off sz key cnt : nat) : outcome (list (list N * list N)) :=
  match cnt with
  | O => Done []
  | S cnt' =>
      match readAt buf off key, readAt buf off sz with
      | Done k, Done r => match maskReads buf (off + sz) sz key cnt' with Done l => Done ((k, r) :: l) | _ => UB end
      | _, _ => UB
      end
  end.
(** EcdhPsiReceiver.cpp:186-218. *)
Definition ecdhMasks (n sz : nat) (buf : list N) : outcome (list (list N * list N)) := if negb (length buf =? n * sz) then Thrown [] else maskReads buf 0 sz 4 n.

(** DKT sender, one step of items: three points for each, DktMPsiSender.cpp:211-221. *)
Fixpoint readTriples (buf : list N) (off sz cnt : nat) : outcome (list (list N * list N * list N)) :=
  match cnt with
  | O => Done []
  | S cnt' =>
      match readAt buf off sz, readAt buf (off + sz) sz, readAt buf (off + sz + sz) sz with
      | Done m, Done n, Done b => match readTriples buf (off + sz + sz + sz) sz cnt' with Done l => Done ((m, n, b) :: l) | _ => UB end
      | _, _, _ => UB
      end
  end.
(** DktMPsiSender.cpp:198-221; [cur]: [curStepSize]. *)
Definition dktTriples (cur sz : nat) (buf : list N) : outcome (list (list N * list N * list N)) :=
  if negb (length buf =? cur * sz * 3) then Thrown [] else readTriples buf 0 sz cur.
(** DktMPsiSender.cpp:280-281: [sigmaPhi.fromBytes(buff.data())], no check. *)
Definition dktPhi (sz : nat) (buf : list N) : outcome (list N) := readAt buf 0 sz.
(** DktMPsiSender.cpp:319-331. *)
Definition dktPhis (cur sz : nat) (buf : list N) : outcome (list (list N)) := checkedMany buf sz cur.
(** DKT receiver: DktMPsiReceiver.cpp:345-358 and 416-426; one point (334-336) is the case [cur = 1]. *)
Definition dktPoints (cur sz : nat) (buf : list N) : outcome (list (list N)) := checkedMany buf sz cur.

(** PRTY sender, the polynomials of [bins] bins with [coeffs] coefficients of [sz] bytes: PrtySender.cpp:149-162, 214-224 (as compiled without [GF2X_Slicing]); the
    check in lines 151-158 is commented out. *)
Definition prtyPolys (bins coeffs sz : nat) (buf : list N) : outcome (list (list N)) := readMany buf 0 sz (bins * coeffs).
(** PRTY sender with one big polynomial: PrtySender.cpp:853-862 and 901-910, no check; [coeffs]: [degree + 1]. *)
Definition prtyBig (coeffs sz : nat) (buf : list N) : outcome (list (list N)) := readMany buf 0 sz coeffs.
(** PRTY receiver, the masks of a step: PrtyReceiver.cpp:235-265 (masks of at least eight bytes), no check; the key [msk] is its first eight bytes. Simplification: the
    whole mask is compared always, not only when a candidate was found. *)
Definition prtyMasks (cur sz : nat) (buf : list N) : outcome (list (list N * list N)) := maskReads buf 0 sz 8 cur.
