(** What lists of buffers are to a program that uses them (small, independent of how
    BufList.v works). *)

From Verif Require Export BufList.

(** From [p] on the heap has the elements [c]: their addresses and bytes. *)
Inductive chain (H : heap) : option addr -> list (addr * buf) -> Prop :=
| Chain_end : chain H None []
| Chain_elem : forall a n d c, nth_error H a = Some (Used (Element (MkElem n d))) -> chain H n c -> chain H (Some a) ((a, d) :: c).

Definition used (H : heap) (a : addr) : Prop := exists b, nth_error H a = Some (Used b).

(** A program that uses lists.  It numbers them; [ok]: the memory was there. *)
Inductive action :=
| New (ok : bool) (d : buf)          (* a list of one element with the bytes d *)
| Add (ok : bool) (i : nat) (d : buf)  (* the bytes d, as a buffer, behind list i *)
| Join (i j : nat)                   (* list j behind list i *)
| Drop (i : nat).                    (* free list i *)

(** What the program does with the library.  Where there is no memory for the new
    element, it frees the buffer itself; list i stays as it is. *)
Definition act (hs : list (option addr)) (x : action) : M (list (option addr)) :=
  match x with
  | New ok d => p <~ ble_alloc ok (length d);;
      match p with None => pure (hs ++ [None]) | Some _ => store p (Element (MkElem None d)) ~;; pure (hs ++ [p]) end
  | Add ok i d => b <~ balloc true (length d);; store b (Buffer d) ~;;
      r <~ ble_append_buf ok (nth i hs None) b;;
      match r with None => bfree b ~;; pure hs | Some _ => pure hs end
  | Join i j => ble_append (nth i hs None) (nth j hs None) ~;; pure (upd hs j None)
  | Drop i => ble_free (nth i hs None) ~;; pure (upd hs i None)
  end.

Fixpoint acts (hs : list (option addr)) (xs : list action) : M (list (option addr)) :=
  match xs with [] => pure hs | x :: xs => hs' <~ act hs x;; acts hs' xs end.

(** What it expects: plain lists of byte strings.  None: no list, or none any more. *)
Definition expect (ls : list (option (list buf))) (x : action) : option (list (option (list buf))) :=
  match x with
  | New ok d => Some (ls ++ [if ok then Some [d] else None])
  | Add ok i d => match nth i ls None with
                  | Some l => Some (if ok then upd ls i (Some (l ++ [d])) else ls)
                  | None => None
                  end
  | Join i j => if Nat.eqb i j then None else
                match nth i ls None, nth j ls None with
                | Some l, Some l' => Some (upd (upd ls i (Some (l ++ l'))) j None)
                | _, _ => None
                end
  | Drop i => Some (upd ls i None)
  end.

Fixpoint expects (ls : list (option (list buf))) (xs : list action) : option (list (option (list buf))) :=
  match xs with [] => Some ls | x :: xs => match expect ls x with Some ls' => expects ls' xs | None => None end end.

(** The heap has the expected lists. *)
Definition has (H : heap) (p : option addr) (l : option (list buf)) : Prop :=
  match p, l with
  | None, None => True
  | Some _, Some l => exists c, chain H p c /\ map snd c = l
  | _, _ => False
  end.

(** Nothing is in use but elements of the lists. *)
Definition only (H : heap) (hs : list (option addr)) : Prop :=
  forall a, used H a -> exists p c, In p hs /\ chain H p c /\ In a (map fst c).

(** The bytes behind a pointer to a buffer; None: NULL. *)
Definition holds (H : heap) (p : option addr) (b : option buf) : Prop :=
  match p, b with
  | None, None => True
  | Some a, Some d => nth_error H a = Some (Used (Buffer d))
  | _, _ => False
  end.

(** The list has the text [s]: the first [l_size] of the bytes of its elements. *)
Definition has_text (H : heap) (l : blist) (s : buf) : Prop :=
  exists c, chain H (l_head l) c /\ zlen (concat (map snd c)) = l_cap l /\ (0 <= l_size l <= l_cap l)%Z /\
    firstn (Z.to_nat (l_size l)) (concat (map snd c)) = s.

(** All that is left of the list is in its last element, which is how [bl_check] wants it. *)
Definition room (H : heap) (l : blist) (n : Z) : Prop :=
  exists c a d, chain H (l_head l) (c ++ [(a, d)]) /\ (l_cap l - l_size l <= zlen d)%Z /\ (n <= l_cap l - l_size l)%Z.
