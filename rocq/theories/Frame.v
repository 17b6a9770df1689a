(** Model of frame parsing: hdr_parse_fields (src/ef.c), the header parsers of
    src/ef-payload.c and src/ef-padding.c, and argc_frame (src/ef-args.c). *)

From Verif Require Export Fill.

Definition is_ign (w : string) : bool := String.eqb w "ign" || String.eqb w "ignore".

(** Result of a header parser: -1, or the number of words consumed, the changed
    header, and the members of the frame that it may set. *)
Inductive pres :=
| PErr
| POk (n : nat) (h : hdr) (padding : Z) (mask : bool).

(** src/ef.c:325-409.  [ws] are the words from argv[i] on, [i] the loop
    variable.  [field_ignore] (line 329) is never set, so lines 356-361 are dead
    and left out; the help output is left out. *)
Fixpoint hpf_loop (fuel : nat) (ws : list string) (i : nat) (h : hdr) (pad : Z)
  (mask : bool) : out pres :=
  match fuel with
  | O => Crash Fuel
  | S fuel =>
      match ws with
      | [] => Ret (POk i h pad mask)
      | w :: r =>
          if String.eqb w "help" then Ret PErr
          else if is_ign w && (i =? 0)%nat then
            hpf_loop fuel r (i + 1) (set_fields (map (set_skip true) (h_fields h)) h) pad true
          else
            match find_field h w with
            | None => Ret (POk i h pad mask)
            | Some f =>
                let h0 := fmod w (set_val None) h in
                match r with
                | [] => Ret PErr
                | v :: r2 =>
                    if is_ign v then
                      hpf_loop fuel r2 (i + 2) (fmod w (set_skip true) h0) pad true
                    else if String.eqb v "help" then Ret PErr
                    else if is_multi (f_parser f) then
                      '(h1, cnt) <- run_multi (f_parser f) h0 w r;;
                      if (0 <? cnt) && (cnt <=? zlen r) then
                        hpf_loop fuel (skipn (Z.to_nat cnt) r) (i + 1 + Z.to_nat cnt)
                          (fmod w (set_skip false) h1) pad mask
                      else Ret PErr
                    else
                      '(h1, o) <- run_parser (f_parser f) h0 v (BIT_TO_BYTE (f_width f));;
                      hpf_loop fuel r2 (i + 2)
                        (fmod w (set_skip false) (fmod w (set_val o) h1)) pad mask
                end
            end
      end
  end.

Definition hdr_parse_fields (ws : list string) (h : hdr) (pad : Z) (mask : bool) : out pres :=
  hpf_loop (S (length ws)) ws 0 h pad mask.

(** src/ef-payload.c:3-19 *)
Definition payload_parser (ws : list string) (h : hdr) (pad : Z) (mask : bool) : out pres :=
  '(res, b) <- parse_var_bytes ws;;
  if res <? 0 then Ret PErr
  else if res =? 0 then Ret (POk 0 h pad mask)
  else
    match b with
    | None => Crash Null_deref
    | Some b =>
        if size_limit <? zlen b then Crash Out_of_model
        else
          Ret (POk (Z.to_nat res)
                 (set_size (zlen b)
                    (set_fields
                       (mod_nth 0 (fun f => set_val (Some b) (set_width (zlen b * 8) f))
                          (h_fields h)) h)) pad mask)
    end.

(** [int] of a uint32_t *)
Definition to_int (x : Z) : Z := if x <? 2147483648 then x else x - 4294967296.

(** src/ef-padding.c:3-18 *)
Definition padding_parser (ws : list string) (h : hdr) (mask : bool) : out pres :=
  match ws with
  | [] => Ret PErr
  | w :: _ =>
      o <- parse_uint32 w;;
      match o with
      | None => Ret PErr
      | Some n => Ret (POk 1 h (to_int n) mask)
      end
  end.

(** [h->parser (f, h, offset, argc, argv)] of src/ef-args.c:52.  ([offset] is
    passed down but used by no parser.) *)
Definition parse_hdr (ws : list string) (h : hdr) (pad : Z) (mask : bool) : out pres :=
  match h_parser h with
  | HP_fields => hdr_parse_fields ws h pad mask
  | HP_payload => payload_parser ws h pad mask
  | HP_padding => padding_parser ws h mask
  | HP_none => Crash Null_deref
  end.

(** src/ef-args.c:31-37: the first template of that name. *)
Definition find_tmpl (w : string) : option hdr :=
  find (fun h => String.eqb w (h_name h)) hdr_tmpls.

(** src/ef-args.c:21-63; [None] is -1.  The push of
    frame_clone_and_push_hdr (src/ef.c:316-323) has no bounds check; beyond
    FRAME_STACK_MAX it writes outside the array. *)
Fixpoint argc_frame_loop (fuel : nat) (ws : list string) (i : nat) (f : frame)
  : out (option (nat * frame)) :=
  match fuel with
  | O => Crash Fuel
  | S fuel =>
      match ws with
      | [] => Ret (Some (i, f))
      | w :: r =>
          if String.eqb w "help" then Ret None
          else
            match find_tmpl w with
            | None => Ret (Some (i, f))
            | Some t =>
                if FRAME_STACK_MAX <=? zlen (fr_stack f) then Crash OOB_write
                else
                  p <- parse_hdr r t (fr_padding f) (fr_has_mask f);;
                  match p with
                  | PErr => Ret None
                  | POk n h pad mask =>
                      argc_frame_loop fuel (skipn n r) (i + 1 + n)
                        (MkFrame (fr_stack f ++ [h]) pad mask)
                  end
            end
      end
  end.

Definition empty_frame : frame := MkFrame [] 0 false.

(** src/ef-args.c:8-64 *)
Definition argc_frame (ws : list string) : out (option (nat * frame)) :=
  if FRAME_STACK_MAX <? zlen ws then Ret None
  else argc_frame_loop (S (length ws)) ws 0 empty_frame.

(** ** Printing (src/ef.c:22-29 print_hex_str) *)
Fixpoint hex_str (b : buf) : string :=
  match b with
  | [] => ""
  | x :: r => String (digit_char (x / 16)) (String (digit_char (x mod 16)) (hex_str r))
  end.
