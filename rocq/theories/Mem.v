(** The same program on a memory with pointers: what is allocated, copied and
    freed while a command line is parsed, its named frames are looked up and
    its commands are thrown away.

    The rest of the model works on values: a frame is a list of headers, a
    header a list of fields, a field owns its bytes.  Here they are blocks of a
    heap that point to each other, as in the C program, so that copying a
    pointer instead of what it points to, freeing a block twice, or using a
    freed block are possible -- and are distinct outcomes.

    Simplifications: allocation succeeds; addresses are not reused (a block
    that is freed stays dead, so that every use of it is seen); what a parser or
    a [frame_fill_defaults] function computes is taken from the value model
    (Frame.v, Fill.v) and then stored in the fields; their temporary buffers
    (freed by the same function) are left out. *)

From Verif Require Export Exec.

Definition addr := nat.

(** src/ef.h:116-127: a field with its two pointers. *)
Record mfield := MkMField {
  mf_name : string;
  mf_skip : bool;
  mf_width : Z;
  mf_off : Z;
  mf_def : option addr;
  mf_val : option addr;
  mf_parser : field_parser }.

(** src/ef.h:133-147.  [fields_size] is the number of cells of the array. *)
Record mhdr := MkMHdr {
  mh_name : string;
  mh_type : Z;
  mh_size : Z;
  mh_fields : option addr;
  mh_fill : filler;
  mh_parser : hdr_parser }.

(** src/ef.h:153-159; [stack] up to [stack_size]. *)
Record mframe := MkMFrame {
  mr_stack : list addr;
  mr_padding : Z;
  mr_mask : bool }.

(** src/ef.h:273-283 *)
Record mcmd := MkMCmd {
  mc_type : cmd_type;
  mc_name : option addr;
  mc_arg0 : option addr;
  mc_frame : option addr;
  mc_buf : option addr;
  mc_mask : option addr;
  mc_done : bool;
  mc_repeat : Z }.

(** What a block of memory holds.  An array of fields that is being filled holds
    the cells written so far. *)
Inductive block :=
| BBuf (b : buf)
| BStr (s : string)
| BFields (l : list mfield)
| BHdr (h : mhdr)
| BFrame (f : mframe).

(** A block is in use ([static]: not from malloc), or has been freed, or is in
    use although the only pointer to it is gone.  (In C the last is as the
    first; it is told apart here to say what leaks.) *)
Inductive slot :=
| Live (static : bool) (b : block)
| Dead
| Lost (b : block).

Definition heap := list slot.

Inductive fault :=
| Use_after_free    (* access to a freed block *)
| Double_free       (* free of a freed block *)
| Free_static       (* free of a block that malloc did not return *)
| Wild_ptr          (* access to something that is no block *)
| Wrong_type.       (* access to a block as something else than it is *)

(** The result of a computation, an abnormal end that has nothing to do with the
    memory (as in Base.v), or a memory fault. *)
Inductive mres (A : Type) :=
| MRet (a : A) (H : heap)
| MCrash (c : crash)
| MFault (f : fault).
Arguments MRet {A} a H.
Arguments MCrash {A} c.
Arguments MFault {A} f.

Definition M (A : Type) := heap -> mres A.

Definition ret {A} (a : A) : M A := fun H => MRet a H.

Definition mbind {A B} (m : M A) (k : A -> M B) : M B :=
  fun H => match m H with
           | MRet a H' => k a H'
           | MCrash c => MCrash c
           | MFault f => MFault f
           end.

Notation "x <~ m ;; k" := (mbind m (fun x => k))
  (at level 61, m at next level, right associativity).
Notation "' p <~ m ;; k" := (mbind m (fun p => k))
  (at level 61, p pattern, m at next level, right associativity).
Notation "m ~;; k" := (mbind m (fun _ => k)) (at level 61, right associativity).

Definition lift {A} (o : out A) : M A :=
  fun H => match o with
           | Ret a => MRet a H
           | Crash c => MCrash c
           end.

Definition mfault {A} (f : fault) : M A := fun _ => MFault f.

(** ** Memory *)

(** malloc and calloc *)
Definition alloc (b : block) : M addr :=
  fun H => MRet (length H) (H ++ [Live false b]).

Definition read (a : addr) : M block :=
  fun H => match nth_error H a with
           | Some (Live _ b) | Some (Lost b) => MRet b H
           | Some Dead => MFault Use_after_free
           | None => MFault Wild_ptr
           end.

Definition write (a : addr) (b : block) : M unit :=
  fun H => match nth_error H a with
           | Some (Live s _) => MRet tt (upd H a (Live s b))
           | Some (Lost _) => MRet tt (upd H a (Lost b))
           | Some Dead => MFault Use_after_free
           | None => MFault Wild_ptr
           end.

(** malloc, when the function returns without its pointer. *)
Definition lose (b : block) : M unit :=
  fun H => MRet tt (H ++ [Lost b]).

(** free; free (NULL) does nothing. *)
Definition free (p : option addr) : M unit :=
  fun H => match p with
           | None => MRet tt H
           | Some a =>
               match nth_error H a with
               | Some (Live false _) | Some (Lost _) => MRet tt (upd H a Dead)
               | Some (Live true _) => MFault Free_static
               | Some Dead => MFault Double_free
               | None => MFault Wild_ptr
               end
           end.

Definition read_buf (a : addr) : M buf :=
  b <~ read a;; match b with BBuf x => ret x | _ => mfault Wrong_type end.
Definition read_str (a : addr) : M string :=
  b <~ read a;; match b with BStr x => ret x | _ => mfault Wrong_type end.
Definition read_fields (a : addr) : M (list mfield) :=
  b <~ read a;; match b with BFields x => ret x | _ => mfault Wrong_type end.
Definition read_hdr (a : addr) : M mhdr :=
  b <~ read a;; match b with BHdr x => ret x | _ => mfault Wrong_type end.
Definition read_frame (a : addr) : M mframe :=
  b <~ read a;; match b with BFrame x => ret x | _ => mfault Wrong_type end.

Definition with_fields (p : option addr) (h : mhdr) : mhdr :=
  MkMHdr (mh_name h) (mh_type h) (mh_size h) p (mh_fill h) (mh_parser h).
Definition with_stack (l : list addr) (f : mframe) : mframe :=
  MkMFrame l (mr_padding f) (mr_mask f).

(** ** Buffers (src/ef-buf.c) *)

(** src/ef-buf.c:7-12 *)
Definition m_bfree (p : option addr) : M unit := free p.

(** src/ef-buf.c:29-40 *)
Definition m_bclone (p : option addr) : M (option addr) :=
  match p with
  | None => ret None
  | Some a => b <~ read_buf a;; a' <~ alloc (BBuf b);; ret (Some a')
  end.

(** ** Fields, headers, frames (src/ef.c:43-118, src/ef.h:81-101) *)

(** src/ef.c:43-54; the memset of the dead cell is left out. *)
Definition m_field_destruct (c : mfield) : M unit :=
  m_bfree (mf_def c) ~;; m_bfree (mf_val c).

(** src/ef.c:56-64: the cell [*dst]. *)
Definition m_field_copy (src : mfield) : M mfield :=
  v <~ m_bclone (mf_val src);;
  d <~ m_bclone (mf_def src);;
  ret (MkMField (mf_name src) (mf_skip src) (mf_width src) (mf_off src) d v (mf_parser src)).

Fixpoint m_destruct_loop (l : list mfield) : M unit :=
  match l with
  | [] => ret tt
  | c :: r => m_field_destruct c ~;; m_destruct_loop r
  end.

(** src/ef.c:66-80; the memset of the dead header is left out. *)
Definition m_hdr_destruct (a : addr) : M unit :=
  h <~ read_hdr a;;
  match mh_fields h with
  | None => ret tt
  | Some fa => l <~ read_fields fa;; m_destruct_loop l ~;; free (Some fa)
  end.

(** src/ef.h:82-84, src/ef.c:33-40 *)
Definition m_hdr_free (p : option addr) : M unit :=
  match p with
  | None => ret tt
  | Some a => m_hdr_destruct a ~;; free (Some a)
  end.

(** src/ef.c:92-95: copy the cells [l] to the array [fa]. *)
Fixpoint m_copy_loop (l : list mfield) (fa : addr) : M unit :=
  match l with
  | [] => ret tt
  | c :: r =>
      c' <~ m_field_copy c;;
      l' <~ read_fields fa;;
      write fa (BFields (l' ++ [c'])) ~;;
      m_copy_loop r fa
  end.

(** src/ef.c:82-98 *)
Definition m_hdr_copy (dst src : addr) : M unit :=
  h <~ read_hdr src;;
  write dst (BHdr h) ~;;
  match mh_fields h with
  | None => ret tt
  | Some sa =>
      l <~ read_fields sa;;
      match l with
      | [] => ret tt
      | _ =>
          fa <~ alloc (BFields []);;
          write dst (BHdr (with_fields (Some fa) h)) ~;;
          m_copy_loop l fa
      end
  end.

(** src/ef.h:85-100 *)
Definition m_hdr_clone (src : addr) : M addr :=
  dst <~ alloc (BHdr (MkMHdr "" 0 0 None FL_none HP_none));;
  m_hdr_copy dst src ~;;
  ret dst.

Fixpoint m_free_loop (l : list addr) : M unit :=
  match l with
  | [] => ret tt
  | a :: r => m_hdr_free (Some a) ~;; m_free_loop r
  end.

(** src/ef.c:100-108 *)
Definition m_frame_destruct (a : addr) : M unit :=
  f <~ read_frame a;; m_free_loop (mr_stack f).

(** src/ef.h:82-84, src/ef.c:33-40 *)
Definition m_frame_free (p : option addr) : M unit :=
  match p with
  | None => ret tt
  | Some a => m_frame_destruct a ~;; free (Some a)
  end.

(** src/ef.h:85-87: calloc *)
Definition m_frame_alloc : M addr := alloc (BFrame (MkMFrame [] 0 false)).

(** src/ef.c:114-118: from index [i] on. *)
Fixpoint m_clone_loop (l : list addr) (i : nat) (dst : addr) : M unit :=
  match l with
  | [] => ret tt
  | a :: r =>
      a' <~ m_hdr_clone a;;
      f <~ read_frame dst;;
      write dst (BFrame (with_stack (upd (mr_stack f) i a') f)) ~;;
      m_clone_loop r (S i) dst
  end.

(** src/ef.c:110-122 *)
Definition m_frame_copy (dst src : addr) : M unit :=
  f <~ read_frame src;;
  write dst (BFrame f) ~;;
  m_clone_loop (mr_stack f) 0 dst.

(** src/ef.h:88-100 *)
Definition m_frame_clone (p : option addr) : M (option addr) :=
  match p with
  | None => mfault Wild_ptr
  | Some src => dst <~ m_frame_alloc;; m_frame_copy dst src ~;; ret (Some dst)
  end.

(** src/ef.c:301-314: the headers go, what their fields own does not. *)
Fixpoint m_reset_loop (l : list addr) : M unit :=
  match l with
  | [] => ret tt
  | a :: r => h <~ read_hdr a;; free (mh_fields h) ~;; free (Some a) ~;; m_reset_loop r
  end.

Definition m_frame_reset (a : addr) : M unit :=
  f <~ read_frame a;;
  m_reset_loop (mr_stack f) ~;;
  write a (BFrame (MkMFrame [] 0 false)).

(** src/ef.c:316-323 *)
Definition m_push_hdr (f t : addr) : M addr :=
  a <~ m_hdr_clone t;;
  fr <~ read_frame f;;
  if FRAME_STACK_MAX <=? zlen (mr_stack fr) then lift (Crash OOB_write)
  else write f (BFrame (with_stack (mr_stack fr ++ [a]) fr)) ~;; ret a.

(** ** What a pointer structure stands for *)

Definition m_get_buf (p : option addr) : M (option buf) :=
  match p with
  | None => ret None
  | Some a => b <~ read_buf a;; ret (Some b)
  end.

Definition m_get_field (c : mfield) : M field :=
  d <~ m_get_buf (mf_def c);;
  v <~ m_get_buf (mf_val c);;
  ret (MkField (mf_name c) (mf_skip c) (mf_width c) (mf_off c) d v (mf_parser c)).

Fixpoint m_get_fields (l : list mfield) : M (list field) :=
  match l with
  | [] => ret []
  | c :: r => f <~ m_get_field c;; fs <~ m_get_fields r;; ret (f :: fs)
  end.

(** The header at [a], read through all its pointers. *)
Definition m_get_hdr (a : addr) : M hdr :=
  h <~ read_hdr a;;
  l <~ match mh_fields h with None => ret [] | Some fa => read_fields fa end;;
  fs <~ m_get_fields l;;
  ret (MkHdr (mh_name h) (mh_type h) (mh_size h) fs (mh_fill h) (mh_parser h)).

Fixpoint m_get_stack (l : list addr) : M (list hdr) :=
  match l with
  | [] => ret []
  | a :: r => h <~ m_get_hdr a;; hs <~ m_get_stack r;; ret (h :: hs)
  end.

Definition m_get_frame (a : addr) : M frame :=
  f <~ read_frame a;;
  hs <~ m_get_stack (mr_stack f);;
  ret (MkFrame hs (mr_padding f) (mr_mask f)).

(** ** Storing what was computed

    The members of the field are assigned.  A value that changed is a new
    buffer, and the old one is freed: src/ef.c:363-366, 389, 402,
    src/ef-payload.c:14-16, src/ef-coap.c:93-99, 228-229, and
    "field->val = parse_bytes (...)" where the value was NULL. *)

Definition opt_buf_eqb (a b : option buf) : bool :=
  match a, b with
  | None, None => true
  | Some x, Some y => if list_eq_dec Z.eq_dec x y then true else false
  | _, _ => false
  end.

Definition m_new_buf (o : option buf) : M (option addr) :=
  match o with
  | None => ret None
  | Some b => a <~ alloc (BBuf b);; ret (Some a)
  end.

Definition m_store_field (c : mfield) (f : field) : M mfield :=
  old <~ m_get_buf (mf_val c);;
  v <~ (if opt_buf_eqb old (f_val f) then ret (mf_val c)
        else n <~ m_new_buf (f_val f);; m_bfree (mf_val c) ~;; ret n);;
  ret (MkMField (mf_name c) (f_skip f) (f_width f) (f_off f) (mf_def c) v (mf_parser c)).

Fixpoint m_store_fields (l : list mfield) (fs : list field) : M (list mfield) :=
  match l, fs with
  | c :: r, f :: fr => c' <~ m_store_field c f;; r' <~ m_store_fields r fr;; ret (c' :: r')
  | _, _ => ret []
  end.

Definition m_store_hdr (a : addr) (h : hdr) : M unit :=
  mh <~ read_hdr a;;
  match mh_fields mh with
  | None => ret tt
  | Some fa =>
      l <~ read_fields fa;;
      l' <~ m_store_fields l (h_fields h);;
      write fa (BFields l')
  end ~;;
  write a (BHdr (MkMHdr (mh_name mh) (h_type h) (h_size h) (mh_fields mh) (mh_fill mh)
                   (mh_parser mh))).

Fixpoint m_store_stack (l : list addr) (hs : list hdr) : M unit :=
  match l, hs with
  | a :: r, h :: hr => m_store_hdr a h ~;; m_store_stack r hr
  | _, _ => ret tt
  end.

(** ** Parsing *)

(** Result of a header parser: as [pres] of Frame.v, the header is in memory. *)
Inductive mpres :=
| MPErr
| MPOk (n : nat) (padding : Z) (mask : bool).

(** The blocks a field parser allocates and neither frees nor returns: both
    buffers of parse_field_hex when the text has too many bytes
    (src/ef-parse-bytes.c:571-584), the token when it has more than 8 bytes or
    none (src/ef-coap.c:59-67). *)
Definition m_parser_lost (p : field_parser) (s : string) (bytes : Z) : M unit :=
  match p with
  | FP_field_hex =>
      match parse_var_bytes_hex s 0 with
      | Ret (Some b) =>
          if bytes <? zlen b then lose (BBuf (balloc bytes)) ~;; lose (BBuf b) else ret tt
      | _ => ret tt
      end
  | FP_coap_token =>
      match parse_var_bytes_hex s 1 with
      | Ret (Some b) => if (8 <? zlen b) || (zlen b =? 0) then lose (BBuf b) else ret tt
      | _ => ret tt
      end
  | _ => ret tt
  end.

(** src/ef.c:325-409 for the header at [a]; compare [hpf_loop] of Frame.v. *)
Fixpoint m_hpf_loop (fuel : nat) (ws : list string) (i : nat) (a : addr) (pad : Z)
  (mask : bool) : M mpres :=
  match fuel with
  | O => lift (Crash Fuel)
  | S fuel =>
      h <~ m_get_hdr a;;
      match ws with
      | [] => ret (MPOk i pad mask)
      | w :: r =>
          if String.eqb w "help" then ret MPErr
          else if is_ign w && (i =? 0)%nat then
            m_store_hdr a (set_fields (map (set_skip true) (h_fields h)) h) ~;;
            m_hpf_loop fuel r (i + 1) a pad true
          else
            match find_field h w with
            | None => ret (MPOk i pad mask)
            | Some f =>
                m_store_hdr a (fmod w (set_val None) h) ~;;
                h0 <~ m_get_hdr a;;
                match r with
                | [] => ret MPErr
                | v :: r2 =>
                    if is_ign v then
                      m_store_hdr a (fmod w (set_skip true) h0) ~;;
                      m_hpf_loop fuel r2 (i + 2) a pad true
                    else if String.eqb v "help" then ret MPErr
                    else if is_multi (f_parser f) then
                      '(h1, cnt) <~ lift (run_multi (f_parser f) h0 w r);;
                      m_store_hdr a h1 ~;;
                      (if (0 <? cnt) && (cnt <=? zlen r) then
                        m_store_hdr a (fmod w (set_skip false) h1) ~;;
                        m_hpf_loop fuel (skipn (Z.to_nat cnt) r) (i + 1 + Z.to_nat cnt) a pad mask
                      else ret MPErr)
                    else
                      '(h1, o) <~ lift (run_parser (f_parser f) h0 v (BIT_TO_BYTE (f_width f)));;
                      m_parser_lost (f_parser f) v (BIT_TO_BYTE (f_width f)) ~;;
                      m_store_hdr a h1 ~;;
                      m_store_hdr a (fmod w (set_skip false) (fmod w (set_val o) h1)) ~;;
                      m_hpf_loop fuel r2 (i + 2) a pad mask
                end
            end
      end
  end.

(** [h->parser (f, h, ...)]: src/ef-args.c:52, src/ef-payload.c:3-19,
    src/ef-padding.c:3-18 *)
Definition m_parse_hdr (ws : list string) (a : addr) (pad : Z) (mask : bool) : M mpres :=
  h <~ m_get_hdr a;;
  match h_parser h with
  | HP_fields => m_hpf_loop (S (length ws)) ws 0 a pad mask
  | _ =>
      p <~ lift (parse_hdr ws h pad mask);;
      match p with
      | PErr => ret MPErr
      | POk n h' pad' mask' => m_store_hdr a h' ~;; ret (MPOk n pad' mask')
      end
  end.

(** src/ef-args.c:31-37: [tab] is the array hdr_tmpls. *)
Fixpoint m_find_tmpl (w : string) (tab : list addr) : M (option addr) :=
  match tab with
  | [] => ret None
  | t :: r => h <~ read_hdr t;; if String.eqb w (mh_name h) then ret (Some t) else m_find_tmpl w r
  end.

(** src/ef-args.c:21-63 for the frame at [fa]; [None] is -1. *)
Fixpoint m_argc_frame_loop (tab : list addr) (fuel : nat) (ws : list string) (i : nat) (fa : addr)
  : M (option nat) :=
  match fuel with
  | O => lift (Crash Fuel)
  | S fuel =>
      match ws with
      | [] => ret (Some i)
      | w :: r =>
          if String.eqb w "help" then ret None
          else
            t <~ m_find_tmpl w tab;;
            match t with
            | None => ret (Some i)
            | Some t =>
                a <~ m_push_hdr fa t;;
                fr <~ read_frame fa;;
                p <~ m_parse_hdr r a (mr_padding fr) (mr_mask fr);;
                match p with
                | MPErr => ret None
                | MPOk n pad mask =>
                    fr <~ read_frame fa;;
                    write fa (BFrame (MkMFrame (mr_stack fr) pad mask)) ~;;
                    m_argc_frame_loop tab fuel (skipn n r) (i + 1 + n) fa
                end
            end
      end
  end.

(** src/ef-args.c:8-64 *)
Definition m_argc_frame (tab : list addr) (ws : list string) (fa : addr) : M (option nat) :=
  if FRAME_STACK_MAX <? zlen ws then ret None
  else m_frame_reset fa ~;; m_argc_frame_loop tab (S (length ws)) ws 0 fa.

(** src/ef.c:465-492 *)
Definition m_frame_to_buf (fa : addr) : M addr :=
  f <~ m_get_frame fa;;
  '(f1, b) <~ lift (frame_to_buf f);;
  fr <~ read_frame fa;;
  m_store_stack (mr_stack fr) (fr_stack f1) ~;;
  alloc (BBuf b).

(** src/ef.c:494-522 *)
Definition m_frame_mask_to_buf (fa : addr) : M addr :=
  f <~ m_get_frame fa;;
  m <~ lift (frame_mask_to_buf f);;
  alloc (BBuf m).

(** ** Commands *)

(** src/ef-args.c:66-83; the memset of the dead command is left out. *)
Definition m_cmd_destruct (c : mcmd) : M unit :=
  free (mc_name c) ~;;
  free (mc_arg0 c) ~;;
  m_frame_free (mc_frame c) ~;;
  m_bfree (mc_buf c) ~;;
  m_bfree (mc_mask c).

Inductive mcres :=
| MCErr
| MCNone
| MCOk (n : nat) (c : mcmd).

(** src/ef-args.c:240-269 *)
Definition m_finish_cmd (tab : list addr) (ct : cmd_type) (name arg0 : option addr) (rep : Z)
  (i : nat) (ws : list string) : M mcres :=
  fa <~ m_frame_alloc;;
  o <~ m_argc_frame tab ws fa;;
  match o with
  | None => m_cmd_destruct (MkMCmd ct name arg0 (Some fa) None None false rep) ~;; ret MCErr
  | Some O =>
      match ct with
      | CT_rx => m_frame_free (Some fa) ~;;
                 ret (MCOk i (MkMCmd ct name arg0 None None None false rep))
      | _ => m_cmd_destruct (MkMCmd ct name arg0 (Some fa) None None false rep) ~;; ret MCNone
      end
  | Some n =>
      b <~ m_frame_to_buf fa;;
      fr <~ read_frame fa;;
      m <~ (if mr_mask fr then m <~ m_frame_mask_to_buf fa;; ret (Some m) else ret None);;
      ret (MCOk (i + n) (MkMCmd ct name arg0 (Some fa) (Some b) m false rep))
  end.

(** strdup *)
Definition m_strdup (s : string) : M addr := alloc (BStr s).

(** src/ef-args.c:232-238 *)
Definition m_cmd_frame (tab : list addr) (ct : cmd_type) (name arg0 : option addr) (rep : Z)
  (i : nat) (ws : list string) : M mcres :=
  match ws with
  | w :: a :: _ =>
      if String.eqb w "name" && negb (cmd_type_eqb ct CT_name) then
        n <~ m_strdup a;;
        ret (MCOk (i + 2) (MkMCmd ct (Some n) arg0 None None None false rep))
      else m_finish_cmd tab ct name arg0 rep i ws
  | _ => m_finish_cmd tab ct name arg0 rep i ws
  end.

(** src/ef-args.c:169-270 *)
Definition m_argc_cmd (tab : list addr) (ws : list string) : M mcres :=
  match ws with
  | [] => ret MCNone
  | w :: r =>
      match cmd_word w with
      | None => if String.eqb w "help" then ret MCErr else ret MCNone
      | Some ct =>
          match r with
          | [] => ret MCNone
          | a :: r2 =>
              match ct with
              | CT_name => n <~ m_strdup a;; m_cmd_frame tab ct (Some n) None 0 2 r2
              | CT_hex => m_cmd_frame tab ct None None 0 1 r
              | CT_pcap | CT_rx => n <~ m_strdup a;; m_cmd_frame tab ct None (Some n) 0 2 r2
              | CT_tx =>
                  n <~ m_strdup a;;
                  match r2 with
                  | [] => lift (Crash Null_deref)
                  | x :: r3 =>
                      if String.eqb x "rep" || String.eqb x "repeat" then
                        match r3 with
                        | [] => lift (Crash Null_deref)
                        | k :: r4 => m_cmd_frame tab ct None (Some n) (atoi_u32 k) 4 r4
                        end
                      else m_cmd_frame tab ct None (Some n) 1 2 r2
                  end
              end
          end
      end
  end.

(** src/ef-args.c:278-297; on an error the commands parsed before are not
    freed (the program ends). *)
Fixpoint m_argc_cmds_loop (tab : list addr) (slots : nat) (ws : list string)
  : M (option (list mcmd)) :=
  match ws with
  | [] => ret (Some [])
  | _ =>
      match slots with
      | O => ret None
      | S k =>
          r <~ m_argc_cmd tab ws;;
          match r with
          | MCErr | MCNone => ret None
          | MCOk n c =>
              o <~ m_argc_cmds_loop tab k (skipn n ws);;
              ret (match o with Some cs => Some (c :: cs) | None => None end)
          end
      end
  end.

Definition m_parse_cmds (tab : list addr) (ws : list string) : M (option (list mcmd)) :=
  m_argc_cmds_loop tab CMD_MAX ws.

(** src/ef-exec.c:319-339: the named command. *)
Fixpoint m_find_named (n : string) (cs : list mcmd) : M (option mcmd) :=
  match cs with
  | [] => ret None
  | c :: r =>
      match mc_type c, mc_buf c, mc_name c with
      | CT_name, Some _, Some ma =>
          m <~ read_str ma;;
          if String.eqb m n then ret (Some c) else m_find_named n r
      | _, _, _ => m_find_named n r
      end
  end.

(** src/ef-exec.c:406-420 for the command [c] of the array [all]; the error
    count. *)
Definition m_pair_one (all : list mcmd) (c : mcmd) : M (mcmd * Z) :=
  match mc_type c, mc_name c, mc_buf c with
  | CT_name, _, _ => ret (c, 0)
  | _, Some na, None =>
      n <~ read_str na;;
      o <~ m_find_named n all;;
      match o with
      | Some d =>
          f <~ m_frame_clone (mc_frame d);;
          b <~ m_bclone (mc_buf d);;
          m <~ m_bclone (mc_mask d);;
          ret (MkMCmd (mc_type c) (mc_name c) (mc_arg0 c) f b m (mc_done c) (mc_repeat c), 0)
      | None => ret (c, 1)
      end
  | _, _, _ => ret (c, 0)
  end.

(** The loop of src/ef-exec.c:406-420: [pre] are the commands done, [rest] those
    to come, all in one array. *)
Fixpoint m_pair_loop (pre rest : list mcmd) : M (list mcmd * Z) :=
  match rest with
  | [] => ret (pre, 0)
  | c :: r =>
      '(c', e) <~ m_pair_one (pre ++ rest) c;;
      '(cs, e') <~ m_pair_loop (pre ++ [c']) r;;
      ret (cs, e + e')
  end.

(** src/ef-args.c:321-323 *)
Fixpoint m_cleanup (cs : list mcmd) : M unit :=
  match cs with
  | [] => ret tt
  | c :: r => m_cmd_destruct c ~;; m_cleanup r
  end.

(** src/ef-args.c:272-326 without what exec_cmds does between pairing and
    returning (it reads the buffers; Exec.v): [false] when the command line is
    refused. *)
Definition m_argc_cmds (tab : list addr) (ws : list string) : M bool :=
  o <~ m_parse_cmds tab ws;;
  match o with
  | None => ret false
  | Some cs => '(cs', _) <~ m_pair_loop [] cs;; m_cleanup cs' ~;; ret true
  end.

(** ** Start and end of the program *)

(** Static storage. *)
Definition place (b : block) : M addr :=
  fun H => MRet (length H) (H ++ [Live true b]).

Fixpoint m_load_fields (fs : list field) : M (list mfield) :=
  match fs with
  | [] => ret []
  | f :: r =>
      d <~ m_new_buf (f_def f);;
      v <~ m_new_buf (f_val f);;
      l <~ m_load_fields r;;
      ret (MkMField (f_name f) (f_skip f) (f_width f) (f_off f) d v (f_parser f) :: l)
  end.

(** A template as the init functions leave it: a static header and a static
    array of fields (none for "padding"); the defaults come from parse_bytes
    (src/ef.c:202-209). *)
Definition m_load_hdr (h : hdr) : M addr :=
  l <~ m_load_fields (h_fields h);;
  p <~ match h_fields h with
       | [] => ret None
       | _ => a <~ place (BFields l);; ret (Some a)
       end;;
  place (BHdr (MkMHdr (h_name h) (h_type h) (h_size h) p (h_fill h) (h_parser h))).

(** src/ef.c:601-622 init: the array hdr_tmpls. *)
Fixpoint m_load_all (hs : list hdr) : M (list addr) :=
  match hs with
  | [] => ret []
  | h :: r => a <~ m_load_hdr h;; l <~ m_load_all r;; ret (a :: l)
  end.

(** src/ef.c:213-218 *)
Fixpoint m_uninit_loop (l : list mfield) : M unit :=
  match l with
  | [] => ret tt
  | c :: r => m_bfree (mf_def c) ~;; m_uninit_loop r
  end.

Definition m_uninit_frame_data (a : addr) : M unit :=
  h <~ read_hdr a;;
  match mh_fields h with
  | None => ret tt
  | Some fa => l <~ read_fields fa;; m_uninit_loop l
  end.

(** The templates no ..._uninit function passes to uninit_frame_data:
    src/ef-oam.c:304-312 (three of five), src/ef-coap.c:336-342 (two of three),
    src/ef-padding.c:30-32 (no fields). *)
Definition not_uninit (n : string) : bool :=
  existsb (String.eqb n) ["oam-lb"; "oam-lt"; "oam-raps"; "coap-opt"; "coap-parms"; "padding"].

(** src/ef.c:645-665 uninit; [skip] are the templates left out.  (That the
    entries of hdr_tmpls are set to NULL is not modelled.) *)
Fixpoint m_uninit (skip : string -> bool) (l : list addr) : M unit :=
  match l with
  | [] => ret tt
  | a :: r =>
      h <~ read_hdr a;;
      (if skip (mh_name h) then ret tt else m_uninit_frame_data a) ~;;
      m_uninit skip r
  end.

(** The life of the process, without options: init (a constructor), the command
    line, uninit (a destructor); [H] is empty at the start. *)
Definition m_process (ws : list string) : M bool :=
  tab <~ m_load_all hdr_tmpls;;
  r <~ m_argc_cmds tab ws;;
  m_uninit not_uninit tab ~;;
  ret r.
