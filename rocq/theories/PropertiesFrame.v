(** Properties C12-C20: fields, frames, masks, matching.  Vocabulary:
    SpecBits.v, SpecFrame.v. *)

From Verif Require Import PMatch.

(** C12 *)
Theorem C12_field_write : forall b offset f v,
  Forall is_byte b -> Forall is_byte v -> 0 <= offset -> 0 <= f_off f -> 0 <= f_width f ->
  f_off f + f_width f + 8 * offset <= 8 * Z.of_nat (length b) ->
  f_width f <= 8 * Z.of_nat (length v) -> Z.of_nat (length v) < 2 ^ 60 ->
  exists b', hdr_write_field b offset f v = Ret b' /\ length b' = length b /\ Forall is_byte b' /\
    number_at b' (8 * offset + f_off f) (Z.to_nat (f_width f)) = positional 256 v mod 2 ^ f_width f /\
    forall i, 0 <= i -> ~ (8 * offset + f_off f <= i < 8 * offset + f_off f + f_width f) ->
      bit_at b' i = bit_at b i.
Proof. exact write_field_number. Qed.
Print Assumptions C12_field_write.

Example C12_case : let f := MkField "x" false 5 3 None None FP_default in
  hdr_write_field [170; 187; 204] 1 f [1; 227] = Ret [170; 163; 204] /\
  number_at [170; 163; 204] 11 5 = 3 /\ positional 256 [1; 227] mod 2 ^ 5 = 3.
Proof. vm_compute. auto. Qed.

(** C13 *)
Theorem C13_write_assertion : forall b offset f v,
  0 <= offset -> 0 <= f_off f -> 0 <= f_width f ->
  Z.of_nat (length b) < 2 ^ 60 -> Z.of_nat (length v) < 2 ^ 60 ->
  (8 * Z.of_nat (length b) < f_off f + f_width f + 8 * offset \/ 8 * Z.of_nat (length v) < f_width f) ->
  hdr_write_field b offset f v = Crash Assert_fail.
Proof. exact write_field_assert. Qed.
Print Assumptions C13_write_assertion.

Example C13_case : let f := MkField "x" false 9 0 None None FP_default in
  hdr_write_field [0; 0] 0 f [1] = Crash Assert_fail /\ hdr_write_field [0] 0 f [1; 2] = Crash Assert_fail.
Proof. vm_compute. auto. Qed.

(** C14 *)
Theorem C14_templates_tiled : forall h, In h hdr_tmpls ->
  exists e, tiled (h_fields h) 0 e /\ (0 < e -> h_size h = (e + 7) / 8) /\ (e = 0 -> 0 <= h_size h <= 1) /\
    forall f, In f (h_fields h) -> within h f.
Proof. exact templates_tiled. Qed.
Print Assumptions C14_templates_tiled.

Example C14_case : In HDR_IPV4 hdr_tmpls /\ h_size HDR_IPV4 = 20 /\ length (h_fields HDR_IPV4) = 13%nat.
Proof. split; [|vm_compute; auto]. unfold hdr_tmpls. repeat (left; reflexivity) || (repeat (right; try (left; reflexivity))). Qed.

(** A frame used in the examples. *)
Definition ex_words : list string :=
  ["eth"; "dmac"; "::1"; "smac"; "::2"; "ipv4"; "sip"; "10.0.0.1"; "dip"; "10.0.0.2"; "ttl"; "ign";
   "udp"; "dport"; "4000"; "data"; "hex"; "0102"].

Definition ex_frame : frame := Eval vm_compute in
  match argc_frame ex_words with Ret (Some (_, f)) => f | _ => empty_frame end.

Definition ex_out : frame * buf := Eval vm_compute in
  match frame_to_buf ex_frame with Ret p => p | _ => (empty_frame, []) end.

Definition ex_mask : buf := Eval vm_compute in
  match frame_mask_to_buf (fst ex_out) with Ret m => m | _ => [] end.

Lemma ex_ok : argc_frame ex_words = Ret (Some (length ex_words, ex_frame)) /\
  frame_to_buf ex_frame = Ret (fst ex_out, snd ex_out) /\
  frame_mask_to_buf (fst ex_out) = Ret ex_mask /\
  Forall well_formed (fr_stack (fst ex_out)) /\ Forall well_formed_mask (fr_stack (fst ex_out)).
Proof.
  split; [vm_compute; reflexivity|]. split; [vm_compute; reflexivity|]. split; [vm_compute; reflexivity|]. split.
  - apply (forallb_Forall _ well_formedb); [apply well_formedb_sound|vm_compute; reflexivity].
  - apply (forallb_Forall _ well_formed_maskb); [apply well_formed_maskb_sound|vm_compute; reflexivity].
Qed.

(** C15 *)
Theorem C15_field_values : forall f f' b k h j fl,
  frame_to_buf f = Ret (f', b) -> Forall well_formed (fr_stack f') ->
  nth_error (fr_stack f') k = Some h -> nth_error (h_fields h) j = Some fl -> within h fl ->
  (forall j' g, j' <> j -> nth_error (h_fields h) j' = Some g -> field_data g <> None -> ~ overlap fl g) ->
  number_at b (8 * start_of (fr_stack f') k + f_off fl) (Z.to_nat (f_width fl)) =
  match field_data fl with
  | Some v => positional 256 v mod 2 ^ f_width fl
  | None => 0
  end.
Proof. exact emitted_field. Qed.
Print Assumptions C15_field_values.

(** The destination port of the example frame. *)
Example C15_case : start_of (fr_stack (fst ex_out)) 2 = 34 /\
  number_at (snd ex_out) (8 * 34 + 16) 16 = 4000.
Proof. vm_compute. auto. Qed.

(** C16 *)
Theorem C16_length_placement : forall f f' b,
  frame_to_buf f = Ret (f', b) ->
  Z.of_nat (length b) = Z.max 60 (sum_sizes (fr_stack f')) /\
  Forall is_byte b /\
  (Forall well_formed (fr_stack f') ->
   (forall k h alone, nth_error (fr_stack f') k = Some h ->
      hdr_copy_to_buf h 0 (zeros (Z.to_nat (h_size h))) = Ret alone ->
      slice b (Z.to_nat (start_of (fr_stack f') k)) (Z.to_nat (h_size h)) = alone) /\
   (forall i, (Z.to_nat (sum_sizes (fr_stack f')) <= i < length b)%nat -> nth i b 0 = 0)).
Proof.
  exact (fun f f' b H => conj (emitted_length f f' b H) (conj (emitted_bytes f f' b H)
    (fun Hwf => conj (fun k h a Hk Ha => emitted_placement f f' b k h H Hwf Hk a Ha)
                     (fun i Hi => emitted_tail f f' b i H Hwf Hi)))).
Qed.
Print Assumptions C16_length_placement.

Example C16_case : sum_sizes (fr_stack (fst ex_out)) = 44 /\ length (snd ex_out) = 60%nat /\
  slice (snd ex_out) 34 8 = [0; 0; 15; 160; 0; 10; 219; 53].
Proof. vm_compute. auto. Qed.

(** C17 *)
Theorem C17_mask : forall f m, frame_mask_to_buf f = Ret m -> Forall well_formed_mask (fr_stack f) ->
  Z.of_nat (length m) = Z.max 60 (sum_sizes (fr_stack f)) /\ Forall is_byte m /\
  (forall i, 8 * sum_sizes (fr_stack f) <= i < 8 * Z.of_nat (length m) -> bit_at m i = true) /\
  (forall k h j, nth_error (fr_stack f) k = Some h -> 0 <= j < 8 * h_size h ->
     (bit_at m (8 * start_of (fr_stack f) k + j) = true <->
      exists fl, In fl (h_fields h) /\ f_skip fl = false /\ f_off fl <= j < f_off fl + f_width fl)).
Proof. exact mask_bits. Qed.
Print Assumptions C17_mask.

Example C17_case : length ex_mask = 60%nat /\ nth 22 ex_mask 1 = 0 /\ nth 23 ex_mask 1 = 255 /\ nth 59 ex_mask 1 = 255.
Proof. vm_compute. auto. Qed.

(** C18.  Holds when no compared field of the header shares bits with the
    ignored one ... *)
Theorem C18_ignored_field_partial : forall f f' b m k h fl rx,
  frame_to_buf f = Ret (f', b) -> frame_mask_to_buf f' = Ret m ->
  Forall well_formed_mask (fr_stack f') ->
  nth_error (fr_stack f') k = Some h -> In fl (h_fields h) -> within h fl ->
  (forall g, In g (h_fields h) -> f_skip g = false -> ~ overlap fl g) ->
  Forall is_byte rx -> length rx = length b ->
  (forall i, 0 <= i < 8 * Z.of_nat (length b) ->
     ~ (8 * start_of (fr_stack f') k + f_off fl <= i < 8 * start_of (fr_stack f') k + f_off fl + f_width fl) ->
     bit_at rx i = bit_at b i) ->
  bequal_mask rx b (Some m) 0 = Ret true.
Proof. exact ignored_field_matches. Qed.
Print Assumptions C18_ignored_field_partial.

(** The time-to-live of the example. *)
Example C18_case : exists h fl, nth_error (fr_stack (fst ex_out)) 1 = Some h /\ In fl (h_fields h) /\ f_name fl = "ttl" /\ f_skip fl = true /\ within h fl /\
  (forall g, In g (h_fields h) -> f_skip g = false -> ~ overlap fl g) /\
  bequal_mask (firstn 22 (snd ex_out) ++ [99] ++ skipn 23 (snd ex_out)) (snd ex_out) (Some ex_mask) 0 = Ret true.
Proof.
  do 2 eexists. split; [reflexivity|]. split; [do 8 right; left; reflexivity|]. split; [reflexivity|]. split; [reflexivity|].
  split; [vm_compute; repeat split; discriminate|]. split; [|vm_compute; reflexivity].
  intros g Hg Hs [H1 H2]. repeat (destruct Hg as [<-|Hg]; [first [discriminate Hs|vm_compute in H1; discriminate H1|vm_compute in H2; discriminate H2]|]). exact Hg.
Qed.

(** ... and fails otherwise: "b1-rew-mac" of ifh-oc1 shares its bit with
    "b0-masq", so ignoring it has no effect. *)
Definition w18_frame : frame := Eval vm_compute in
  match argc_frame ["ifh-oc1"; "b1-rew-mac"; "ign"] with Ret (Some (_, f)) => f | _ => empty_frame end.
Definition w18_out : frame * buf := Eval vm_compute in
  match frame_to_buf w18_frame with Ret p => p | _ => (empty_frame, []) end.
Definition w18_mask : buf := Eval vm_compute in
  match frame_mask_to_buf (fst w18_out) with Ret m => m | _ => [] end.

Theorem C18_refuted : exists ws n f f' b m h fl rx,
  argc_frame ws = Ret (Some (n, f)) /\ frame_to_buf f = Ret (f', b) /\ frame_mask_to_buf f' = Ret m /\
  fr_stack f' = [h] /\ In fl (h_fields h) /\ f_skip fl = true /\ within h fl /\
  Forall is_byte rx /\ length rx = length b /\
  (forall i, 0 <= i < 8 * Z.of_nat (length b) -> ~ (f_off fl <= i < f_off fl + f_width fl) ->
     bit_at rx i = bit_at b i) /\
  bequal_mask rx b (Some m) 0 = Ret false.
Proof.
  exists ["ifh-oc1"; "b1-rew-mac"; "ign"], 3%nat, w18_frame, (fst w18_out), (snd w18_out), w18_mask,
    (nth 0 (fr_stack (fst w18_out)) HDR_ETH),
    (MkField "b1-rew-mac" true 1 1 None None FP_default), (64 :: repeat 0 59).
  do 4 (split; [vm_compute; reflexivity|]). split; [vm_compute; auto|]. split; [reflexivity|].
  split; [unfold within; vm_compute; intuition discriminate|].
  split; [constructor; [unfold is_byte; lia|]; apply Forall_forall; intros x Hx; apply repeat_spec in Hx; unfold is_byte; lia|].
  split; [vm_compute; reflexivity|]. split; [|vm_compute; reflexivity].
  cbn [f_off f_width]. intros i Hi Hn. change (snd w18_out) with (repeat 0 60). unfold bit_at.
  rewrite nth_repeat', Z.testbit_0_l. destruct (Z.to_nat (i / 8)) as [|k] eqn:Ek; cbn [nth].
  - assert (i = 0 \/ i = 2 \/ i = 3 \/ i = 4 \/ i = 5 \/ i = 6 \/ i = 7) as D by lia.
    destruct D as [->|[->|[->|[->|[->|[->| -> ]]]]]]; reflexivity.
  - rewrite nth_repeat'. apply Z.testbit_0_l.
Qed.
Print Assumptions C18_refuted.

(** C19 *)
Theorem C19_matching : forall rx exp mask,
  Forall is_byte rx -> Forall is_byte exp -> (forall m, mask = Some m -> Forall is_byte m) ->
  exists r, bequal_mask rx exp mask 0 = Ret r /\
  (r = true <-> length rx = length exp /\
     forall i, 0 <= i < 8 * Z.of_nat (length exp) -> compared mask i -> bit_at rx i = bit_at exp i).
Proof. exact bequal_spec. Qed.
Print Assumptions C19_matching.

Example C19_case : bequal_mask [1; 2; 7] [1; 2; 3] (Some [255; 255; 251]) 0 = Ret true /\
  bequal_mask [1; 2; 7] [1; 2; 3] (Some [255; 255; 255]) 0 = Ret false.
Proof. vm_compute. auto. Qed.

(** C20.  A frame of any other length does not match ... *)
Theorem C20_padding_partial : forall rx exp mask n, length rx <> (length exp + n)%nat ->
  bequal_mask rx exp mask (Z.of_nat n) = Ret false.
Proof. exact padding_other_length. Qed.
Print Assumptions C20_padding_partial.

(** ... but for a frame of the right length the n bytes behind the expected frame
    are read; no frame is ever accepted. *)
Theorem C20_refuted :
  (forall rx exp n, (0 < n)%nat -> length rx = (length exp + n)%nat ->
     bequal_mask rx exp None (Z.of_nat n) = Crash OOB_read) /\
  (forall rx exp mask n, (0 < n)%nat -> bequal_mask rx exp mask (Z.of_nat n) <> Ret true) /\
  (exists n f, argc_frame ["eth"; "padding"; "4"] = Ret (Some (n, f)) /\ fr_padding f = 4).
Proof.
  split; [exact padding_reads_outside|]. split; [exact padding_never_matches|]. do 2 eexists. split; vm_compute; reflexivity.
Qed.
Print Assumptions C20_refuted.
