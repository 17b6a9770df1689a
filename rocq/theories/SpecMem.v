(** What it means that pointers in memory stand for a value of the model
    (small, independent of the operations of Mem.v). *)

From Verif Require Export Mem.

(** The block at address [a] is in use and holds [b]; [s]: static storage. *)
Definition holds (H : heap) (a : addr) (s : bool) (b : block) : Prop :=
  nth_error H a = Some (Live s b).

(** In use, and not lost. *)
Definition live (H : heap) (a : addr) : Prop := exists s b, holds H a s b.

(** In use, but the only pointer to it is gone. *)
Definition lost (H : heap) (a : addr) : Prop := exists b, nth_error H a = Some (Lost b).

(** In use, and obtained from malloc. *)
Definition malloced (H : heap) (a : addr) : Prop := (exists b, holds H a false b) \/ lost H a.

Definition the (p : option addr) : list addr :=
  match p with Some a => [a] | None => [] end.

(** A pointer to a buffer of its own, or NULL. *)
Definition is_buf (H : heap) (p : option addr) (v : option buf) : Prop :=
  match p, v with
  | None, None => True
  | Some a, Some b => holds H a false (BBuf b)
  | _, _ => False
  end.

Definition is_str (H : heap) (p : option addr) (v : option string) : Prop :=
  match p, v with
  | None, None => True
  | Some a, Some b => holds H a false (BStr b)
  | _, _ => False
  end.

Definition is_field (H : heap) (c : mfield) (f : field) : Prop :=
  mf_name c = f_name f /\ mf_skip c = f_skip f /\ mf_width c = f_width f /\
  mf_off c = f_off f /\ mf_parser c = f_parser f /\
  is_buf H (mf_def c) (f_def f) /\ is_buf H (mf_val c) (f_val f).

(** The blocks a field owns. *)
Definition owned (c : mfield) : list addr := the (mf_def c) ++ the (mf_val c).

(** The header at [a] stands for [h]; the blocks it consists of are [S]. *)
Definition is_hdr (s : bool) (H : heap) (a : addr) (h : hdr) (S : list addr) : Prop :=
  exists m,
    holds H a s (BHdr m) /\
    mh_name m = h_name h /\ mh_type m = h_type h /\ mh_size m = h_size h /\
    mh_fill m = h_fill h /\ mh_parser m = h_parser h /\
    match mh_fields m with
    | None => h_fields h = [] /\ S = [a]
    | Some fa =>
        exists l, l <> [] /\ holds H fa s (BFields l) /\ Forall2 (is_field H) l (h_fields h) /\
                  S = a :: fa :: flat_map owned l
    end.

Inductive are_hdrs (s : bool) (H : heap) : list addr -> list hdr -> list addr -> Prop :=
| ah_nil : are_hdrs s H [] [] []
| ah_cons : forall a h S1 l hs S2,
    is_hdr s H a h S1 -> are_hdrs s H l hs S2 -> are_hdrs s H (a :: l) (h :: hs) (S1 ++ S2).

Definition is_frame (H : heap) (a : addr) (f : frame) (S : list addr) : Prop :=
  exists l S',
    holds H a false (BFrame (MkMFrame l (fr_padding f) (fr_has_mask f))) /\
    are_hdrs false H l (fr_stack f) S' /\ S = a :: S'.

Definition is_frame_opt (H : heap) (p : option addr) (f : option frame) (S : list addr) : Prop :=
  match p, f with
  | None, None => S = []
  | Some a, Some f => is_frame H a f S
  | _, _ => False
  end.

Definition is_cmd (H : heap) (m : mcmd) (c : cmd) (S : list addr) : Prop :=
  mc_type m = c_type c /\ mc_done m = c_done c /\ mc_repeat m = c_repeat c /\
  is_str H (mc_name m) (c_name c) /\ is_str H (mc_arg0 m) (c_arg0 c) /\
  is_buf H (mc_buf m) (c_buf c) /\ is_buf H (mc_mask m) (c_mask c) /\
  exists SF, is_frame_opt H (mc_frame m) (c_frame c) SF /\
    S = the (mc_name m) ++ the (mc_arg0 m) ++ SF ++ the (mc_buf m) ++ the (mc_mask m).

Inductive are_cmds (H : heap) : list mcmd -> list cmd -> list addr -> Prop :=
| ac_nil : are_cmds H [] [] []
| ac_cons : forall m c S1 l cs S2,
    is_cmd H m c S1 -> are_cmds H l cs S2 -> are_cmds H (m :: l) (c :: cs) (S1 ++ S2).

(** The blocks in use are those of [S], each listed once. *)
Definition in_use (H : heap) (S : list addr) : Prop :=
  NoDup S /\ forall a, In a S <-> live H a.

(** The blocks of [S] are untouched. *)
Definition untouched (H H' : heap) (S : list addr) : Prop :=
  forall a, In a S -> nth_error H' a = nth_error H a.

(** *** The memory of the whole process *)

(** The array hdr_tmpls is in memory, and nothing else is. *)
Definition only_templates (H : heap) (tab : list addr) : Prop :=
  exists S, are_hdrs true H tab hdr_tmpls S /\ in_use H S.

(** Block [a] belongs to the template named [n]. *)
Definition of_template (H : heap) (tab : list addr) (n : string) (a : addr) : Prop :=
  exists t h S, In (t, h) (combine tab hdr_tmpls) /\ h_name h = n /\ is_hdr true H t h S /\ In a S.

(** *** What may be lost *)

(** How many characters of a text are hexadecimal digits. *)
Definition hex_digits (s : string) : nat :=
  length (filter (fun c => existsb (Ascii.eqb c) (list_ascii_of_string "0123456789abcdefABCDEF"))
            (list_ascii_of_string s)).

(** The word [v] follows the word [w]. *)
Definition follows (ws : list string) (w v : string) : Prop :=
  exists pre post, ws = pre ++ w :: v :: post.

(** The command line gives a CoAP token of more than 8 bytes, or a MEG
    identifier. *)
Definition may_lose (ws : list string) : Prop :=
  (exists v, follows ws "token" v /\ (16 < hex_digits v)%nat) \/ In "meg_id"%string ws.
