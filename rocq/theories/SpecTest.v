(** Tests written in words (C84): a command line of frames to send, frames to expect and
    named frames, all in the words of SpecWish.v, and what it says about the frames on
    the wire. *)

From Coq Require Import Permutation.
From Verif Require Import Exec SpecParse.
From Verif Require Export SpecExec SpecWish.

(** A frame, or the name of one. *)
Inductive source :=
| Words (ws : list wish)
| Named (n : string).

Inductive step :=
| Send (ifn : string) (rep : option (string * string * Z)) (s : source)   (* tx IF [rep N] FRAME *)
| Expect (ifn : string) (s : source)                                      (* rx IF FRAME *)
| Nothing (ifn : string)                                                  (* rx IF *)
| Define (n : string) (ws : list wish).                                   (* name N FRAME *)

(** *** How it is written *)
Definition source_words (s : source) : list string :=
  match s with Words ws => asked ws | Named n => ["name"; n]%string end.
Definition step_words (x : step) : list string :=
  match x with
  | Send ifn None s => "tx" :: ifn :: source_words s
  | Send ifn (Some (w, k, _)) s => "tx" :: ifn :: w :: k :: source_words s
  | Expect ifn s => "rx" :: ifn :: source_words s
  | Nothing ifn => ["rx"; ifn]
  | Define n ws => "name" :: n :: asked ws
  end%string.
Definition line (T : list step) : list string := flat_map step_words T.

(** *** What it says *)

(** The first definition of a name counts. *)
Fixpoint meaning (T : list step) (n : string) : option (list wish) :=
  match T with
  | [] => None
  | Define m ws :: T' => if String.eqb m n then Some ws else meaning T' n
  | _ :: T' => meaning T' n
  end.
Definition resolved (T : list step) (s : source) : list (list wish) :=
  match s with
  | Words ws => [ws]
  | Named n => match meaning T n with Some ws => [ws] | None => [] end
  end.

(** The interfaces, in the order of their first use: number i is socket i. *)
Definition step_if (x : step) : list string :=
  match x with Send i _ _ | Expect i _ | Nothing i => [i] | Define _ _ => [] end.
Definition used (T : list step) : list string := distinct (flat_map step_if T).

(** The frames to be sent on an interface, each with its number of repetitions, and the
    frames expected there. *)
Definition copies (rep : option (string * string * Z)) : Z := match rep with Some (_, _, n) => n | None => 1 end.
Definition to_send (ifn : string) (T : list step) : list (list wish * Z) :=
  flat_map (fun x => match x with
                     | Send i rep s => if String.eqb i ifn then map (fun ws => (ws, copies rep)) (resolved T s) else []
                     | _ => []
                     end) T.
Definition to_expect (ifn : string) (T : list step) : list (list wish) :=
  flat_map (fun x => match x with
                     | Expect i s => if String.eqb i ifn then resolved T s else []
                     | _ => []
                     end) T.

Definition sending (ifn : string) (T : list step) : Prop := exists rep s, In (Send ifn rep s) T.
Definition listening (ifn : string) (T : list step) : Prop := In (Nothing ifn) T \/ exists s, In (Expect ifn s) T.

(** A received frame is as the words say: it agrees with the frame they describe in all
    bits that are not ignored. *)
Definition meets (ws : list wish) (rx : list Z) : Prop :=
  exists b, spelled (map plain ws) b /\ length rx = length b /\
    forall i, 0 <= i < 8 * Z.of_nat (length b) -> ~ disregarded ws i -> bit_at rx i = bit_at b i.

(** *** Tests that are written properly *)

(** No word asks to ignore anything. *)
Definition strict (ws : list wish) : Prop := Forall (fun w => asks_ignore w = false) (asked ws).

(** The frame can be written (C82, C83), and its mask, if it needs one, can be built
    (C67). *)
Definition sayable (ws : list wish) : Prop := well_asked ws /\ (maskable ws \/ strict ws).

Definition frames_in (x : step) : list (list wish) :=
  match x with
  | Send _ _ (Words ws) | Expect _ (Words ws) | Define _ ws => [ws]
  | _ => []
  end.
Definition names_in (x : step) : list string :=
  match x with Send _ _ (Named n) | Expect _ (Named n) => [n] | _ => [] end.

Record proper (T : list step) : Prop := {
  pr_frames : forall x ws, In x T -> In ws (frames_in x) -> sayable ws;
  pr_names : forall x n, In x T -> In n (names_in x) -> meaning T n <> None;
  pr_copies : forall ifn w k n s, In (Send ifn (Some (w, k, n)) s) T -> In w ["rep"; "repeat"]%string /\ denotes 10 k n /\ 0 < n < 2 ^ 32;
  (* the words of a definition would be read as the frame of "rx IF" *)
  pr_apart : forall A ifn n ws B, T <> A ++ Nothing ifn :: Define n ws :: B;
  pr_sides : forall ifn, sending ifn T -> ~ listening ifn T;
  pr_size : (length (line T) <= 100)%nat }.

(** *** The world *)

(** All sockets can be opened, sending works, and what is received are frames of
    ordinary size. *)
Record healthy (T : list step) (e : env) : Prop := {
  hl_open : forall ifn, In ifn (used T) -> e_open e ifn = true;
  hl_send : all_sent (e_rounds e);
  hl_rx : forall rd i m, In rd (e_rounds e) -> rd_rx rd i = Some m -> ordinary m /\ Forall is_byte (rx_data m) }.

(** The frames that arrive at interface number [i] while the sockets are served. *)
Definition arrived (i : nat) (e : env) : list (list Z) := map put_tag (delivered i (served (e_rounds e))).

(** The frames of an interface are those expected there, in any order. *)
Definition satisfied (i : nat) (ifn : string) (T : list step) (e : env) : Prop :=
  exists W, Permutation (to_expect ifn T) W /\ Forall2 meets W (arrived i e).
Definition all_satisfied (T : list step) (e : env) : Prop :=
  forall i ifn, nth_error (used T) i = Some ifn -> listening ifn T -> satisfied i ifn T e.

(** A frame that is as two of the expectations of an interface say does not tell them
    apart. *)
Definition distinguishable (T : list step) : Prop :=
  forall ifn ws ws' rx rx', In ws (to_expect ifn T) -> In ws' (to_expect ifn T) -> Forall is_byte rx -> Forall is_byte rx' ->
    meets ws rx -> meets ws' rx -> meets ws rx' -> meets ws' rx'.
