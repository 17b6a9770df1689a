(** Properties C33, C34, C36 (parsing of frames), and C15, C16 for the frames
    the parser accepts.  Vocabulary: SpecParse.v, SpecFrame.v. *)

From Verif Require Import PTextIp Frame PSer SpecParse PParse PMatch SpecFrame PFrame PInv PStep PArgs PPrefix PSoft PFill PGroup PAll PSafe.

(** C33.  [Fuel] would mean that the loop does not end within the number of words;
    [OOB_write] that a header is stored beyond the stack array. *)
Theorem C33_frame_parsing_bounds : forall ws,
  argc_frame ws <> Crash Fuel /\ argc_frame ws <> Crash OOB_write /\
  forall n f, argc_frame ws = Ret (Some (n, f)) ->
    (n <= length ws)%nat /\ (length (fr_stack f) <= n)%nat /\ (length (fr_stack f) <= 100)%nat.
Proof.
  exact (fun ws => conj (fun H => crash_not_fuel _ _ (parse_frame_crash ws _ H) eq_refl)
                  (conj (fun H => crash_not_write _ _ (parse_frame_crash ws _ H) eq_refl) (parse_frame_bounds ws))).
Qed.
Print Assumptions C33_frame_parsing_bounds.

Example C33_case : exists f, argc_frame ["eth"; "dmac"; "::1"; "ctag"; "vid"; "5"; "data"; "hex"; "aa"; "rep"; "3"] = Ret (Some (9%nat, f)) /\
  length (fr_stack f) = 3%nat.
Proof. eexists. split; vm_compute; reflexivity. Qed.

(** C34 *)
Theorem C34_own_words : forall ws n f k, argc_frame ws = Ret (Some (n, f)) -> (n <= k)%nat ->
  argc_frame (firstn k ws) = Ret (Some (n, f)).
Proof. exact argc_prefix. Qed.
Print Assumptions C34_own_words.

Example C34_case : exists f,
  argc_frame ["eth"; "dmac"; "::1"; "data"; "hex"; "aa"; "rx"; "eth0"; "eth"] = Ret (Some (6%nat, f)) /\
  argc_frame ["eth"; "dmac"; "::1"; "data"; "hex"; "aa"] = Ret (Some (6%nat, f)).
Proof. eexists. split; vm_compute; reflexivity. Qed.

(** C36.  Parsing: the only undefined behaviour comes from an over-long literal
    for a wide field and from "par" without data ... *)
Theorem C36_parsing_safe_partial : forall ws c, argc_frame ws = Crash c ->
  c = Out_of_model \/ (c = OOB_read /\ overlong_word ws) \/ (c = Uninit_ptr /\ missing_parameter ws).
Proof. exact parse_frame_crash. Qed.
Print Assumptions C36_parsing_safe_partial.

(** ... serialising an accepted frame, and its mask, has none. *)
Theorem C36_serialising_safe : forall ws n f, argc_frame ws = Ret (Some (n, f)) ->
  (forall c, frame_to_buf f = Crash c -> is_ub c = false) /\
  (forall f' b c, frame_to_buf f = Ret (f', b) -> frame_mask_to_buf f' = Crash c -> is_ub c = false).
Proof.
  exact (fun ws n f H => conj (fun c Hc => serialise_not_ub c (serialise_crash ws n f c H Hc))
                              (fun f' b c Hb Hc => mask_not_ub c (mask_crash ws n f f' b c H Hb Hc))).
Qed.
Print Assumptions C36_serialising_safe.

(** The two exceptions occur. *)
Theorem C36_refuted :
  (exists ws, argc_frame ws = Crash OOB_read) /\ (exists ws, argc_frame ws = Crash Uninit_ptr).
Proof.
  split; [exists ["ipv6"; "sip"; "0x112233445566778899aabbccddeeff0011"]|exists ["coap-parms"; "par"; "x"]];
    vm_compute; reflexivity.
Qed.
Print Assumptions C36_refuted.

Example C36_case : exists f f' b m, argc_frame ["eth"; "dmac"; "ign"; "ipv4"; "udp"; "coap"; "token"; "0102"; "coap-opt"; "num"; "300"; "val"; "ascii"; "abc"]
    = Ret (Some (14%nat, f)) /\
  frame_to_buf f = Ret (f', b) /\ frame_mask_to_buf f' = Ret m /\ length (fr_stack f) = 5%nat.
Proof.
  do 4 eexists. split; [vm_compute; reflexivity|]. split; [vm_compute; reflexivity|]. split; vm_compute; reflexivity.
Qed.

(** Every frame the parser accepts can be serialised: apart from MLD (which stops
    with exit() when no IPv6 addresses precede it) and frames beyond 128 MiB, only
    the headers that are not [regular] can stop it. *)
Theorem C36_accepted_serialises : forall ws n f c, argc_frame ws = Ret (Some (n, f)) ->
  Forall (fun h => regular h = true) (fr_stack f) ->
  frame_to_buf f = Crash c -> c = Exit_call \/ c = Out_of_model.
Proof. exact serialise_regular. Qed.
Print Assumptions C36_accepted_serialises.

(** An irregular header may trip an assertion. *)
Theorem C36_irregular_refuted : exists ws n f, argc_frame ws = Ret (Some (n, f)) /\ frame_to_buf f = Crash Assert_fail.
Proof.
  exists (repeat "htag"%string 10 ++ ["sv"; "tlv0_len"; "1"]). do 2 eexists. split; [vm_compute; reflexivity|]. vm_compute. reflexivity.
Qed.
Print Assumptions C36_irregular_refuted.

(** C15 and C16 for accepted frames *)
Theorem C15_accepted_frames : forall ws n f f' b k h j fl,
  argc_frame ws = Ret (Some (n, f)) -> Forall (fun h => regular h = true) (fr_stack f) ->
  frame_to_buf f = Ret (f', b) ->
  nth_error (fr_stack f') k = Some h -> nth_error (h_fields h) j = Some fl -> within h fl ->
  (forall j' g, j' <> j -> nth_error (h_fields h) j' = Some g -> field_data g <> None -> ~ overlap fl g) ->
  number_at b (8 * start_of (fr_stack f') k + f_off fl) (Z.to_nat (f_width fl)) =
  match field_data fl with
  | Some v => positional 256 v mod 2 ^ f_width fl
  | None => 0
  end.
Proof. exact (fun ws n f f' b k h j fl H HR Hb => emitted_field f f' b k h j fl Hb (accepted_well_formed ws n f f' b H HR Hb)). Qed.
Print Assumptions C15_accepted_frames.

Example C15_accepted_case : exists f f' b h fl, argc_frame ["eth"; "ipv4"; "igmp"; "ga"; "224.0.0.1"; "data"; "hex"; "0102"] = Ret (Some (8%nat, f)) /\
  Forall (fun h => regular h = true) (fr_stack f) /\ frame_to_buf f = Ret (f', b) /\ nth_error (fr_stack f') 2 = Some h /\ nth_error (h_fields h) 3 = Some fl /\ f_name fl = "ga"%string /\ within h fl /\
  (forall j' g, j' <> 3%nat -> nth_error (h_fields h) j' = Some g -> field_data g <> None -> ~ overlap fl g) /\ field_data fl = Some [224; 0; 0; 1].
Proof.
  do 5 eexists. split; [vm_compute; reflexivity|]. split; [repeat constructor|]. split; [vm_compute; reflexivity|]. split; [reflexivity|]. split; [reflexivity|]. split; [reflexivity|]. split; [unfold within; vm_compute; intuition discriminate|].
  split; [|reflexivity]. intros j' g Hj Hg Hd [H1 H2]. do 14 (destruct j' as [|j']; [first [congruence | cbn in Hg; apply some_inj in Hg; subst g; vm_compute in Hd, H1, H2; congruence | discriminate Hg]|]). destruct j'; discriminate Hg.
Qed.

Theorem C16_accepted_frames : forall ws n f f' b,
  argc_frame ws = Ret (Some (n, f)) -> Forall (fun h => regular h = true) (fr_stack f) ->
  frame_to_buf f = Ret (f', b) ->
  length (fr_stack f') = length (fr_stack f) /\
  Z.of_nat (length b) = Z.max 60 (sum_sizes (fr_stack f')) /\
  (forall k h alone, nth_error (fr_stack f') k = Some h ->
      hdr_copy_to_buf h 0 (zeros (Z.to_nat (h_size h))) = Ret alone ->
      slice b (Z.to_nat (start_of (fr_stack f') k)) (Z.to_nat (h_size h)) = alone) /\
  (forall i, (Z.to_nat (sum_sizes (fr_stack f')) <= i < length b)%nat -> nth i b 0 = 0).
Proof.
  exact (fun ws n f f' b H HR Hb =>
    let W := accepted_well_formed ws n f f' b H HR Hb in
    conj (accepted_length ws n f f' b H Hb) (conj (emitted_length f f' b Hb)
    (conj (fun k h a Hk Ha => emitted_placement f f' b k h Hb W Hk a Ha) (fun i Hi => emitted_tail f f' b i Hb W Hi)))).
Qed.
Print Assumptions C16_accepted_frames.

Example C16_accepted_case : exists f f' b,
  argc_frame ["eth"; "ipv4"; "igmp"; "ga"; "224.0.0.1"; "data"; "hex"; "0102"] = Ret (Some (8%nat, f)) /\
  Forall (fun h => regular h = true) (fr_stack f) /\ frame_to_buf f = Ret (f', b) /\
  sum_sizes (fr_stack f') = 44 /\ start_of (fr_stack f') 3 = 42 /\ slice b 42 2 = [1; 2].
Proof. do 3 eexists. split; [vm_compute; reflexivity|]. split; [repeat constructor|]. split; [vm_compute; reflexivity|]. vm_compute. auto. Qed.
