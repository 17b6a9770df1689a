(** Properties C11, C32, C35, C54: setting fields by "name value". *)

From Verif Require Import PTextIp Frame PSer SpecParse PParse PInv PStep PArgs PAssign PField.

(** C35.  [t] is any header, [asg] any sequence of assignments to its fields, in any
    order, with repetitions, followed by any words [rest] that are no field of it. *)
Theorem C35_assignments : forall t asg rest pad mask, In t hdr_tmpls ->
  (forall n v, In (n, v) asg -> assignable t n v) -> ends t rest ->
  exists h mask', hdr_parse_fields (words_of asg ++ rest) t pad mask = Ret (POk (2 * length asg) h pad mask') /\
    (mask' = true <-> mask = true \/ exists n v, In (n, v) asg /\ ignore_word v) /\
    h = set_fields (h_fields h) t /\ length (h_fields h) = length (h_fields t) /\
    forall j f, nth_error (h_fields t) j = Some f ->
      exists f', nth_error (h_fields h) j = Some f' /\
        (first_named (h_fields t) j (f_name f) ->
           match last_given asg (f_name f) with
           | Some v => same_place f f' /\ takes f v f'
           | None => f' = f
           end) /\
        (~ first_named (h_fields t) j (f_name f) -> f' = f).
Proof. exact assignments. Qed.
Print Assumptions C35_assignments.

(** The same header is what the frame consists of. *)
Theorem C35_whole_frame : forall t asg rest, In t hdr_tmpls -> h_parser t = HP_fields ->
  (forall n v, In (n, v) asg -> assignable t n v) -> ends t rest ->
  match rest with w :: _ => forall u, In u hdr_tmpls -> h_name u <> w | [] => True end ->
  Z.of_nat (length (h_name t :: words_of asg ++ rest)) <= 100 ->
  exists h mask, hdr_parse_fields (words_of asg ++ rest) t 0 false = Ret (POk (2 * length asg) h 0 mask) /\
    argc_frame (h_name t :: words_of asg ++ rest) = Ret (Some (1 + 2 * length asg, MkFrame [h] 0 mask))%nat.
Proof. exact frame_assignments. Qed.
Print Assumptions C35_whole_frame.

Example C35_case : In HDR_ETH hdr_tmpls /\
  (forall n v, In (n, v) [("smac", "::2"); ("dmac", "::1"); ("et", "ign"); ("smac", "1:2:3:4:5:6")]%string -> assignable HDR_ETH n v) /\
  ends HDR_ETH ["ctag"%string] /\
  last_given [("smac", "::2"); ("dmac", "::1"); ("et", "ign"); ("smac", "1:2:3:4:5:6")]%string "smac" = Some "1:2:3:4:5:6"%string.
Proof.
  split; [apply (find_tmpl_in "eth"); vm_compute; reflexivity|]. split.
  - assert (K : forall j f n v, nth_error (h_fields HDR_ETH) j = Some f -> f_name f = n ->
      first_namedb (h_fields HDR_ETH) j n = true -> (String.eqb n "help" || is_ign n || String.eqb v "help") = false ->
      (is_ign v || match field_text (f_parser f) v (Z.max 1 ((f_width f + 7) / 8)) with Ret _ => true | _ => false end) = true -> assignable HDR_ETH n v).
    { intros j f n v H1 H2 H3 H4 H5. rewrite !orb_false_iff in H4. destruct H4 as [[H4 H6] H7].
      split; [apply String.eqb_neq; auto|]. split; [intro X; apply is_ign_iff in X; congruence|]. split; [apply String.eqb_neq; auto|].
      exists j, f. split; [auto|split; [auto|split; [apply first_namedb_spec; auto|]]]. apply orb_true_iff in H5. destruct H5 as [H5|H5].
      - left. apply is_ign_iff. auto.
      - right. destruct (field_text (f_parser f) v (Z.max 1 ((f_width f + 7) / 8))) as [o|]; [eauto|discriminate]. }
    intros n v [E|[E|[E|[E|[]]]]]; injection E as <- <-;
      [eapply (K 1%nat)|eapply (K 0%nat)|eapply (K 2%nat)|eapply (K 1%nat)]; try reflexivity; vm_compute; reflexivity.
  - split; [|reflexivity]. split; [discriminate|]. split; [intros [X|X]; discriminate|].
    intros f Hf. repeat (destruct Hf as [<-|Hf]; [discriminate|]). destruct Hf.
Qed.

(** C54.  Full claim: for every field of every header.  Four fields are exceptions
    ([unsettable]); for every other field whose size is fixed, "field value" sets it,
    and nothing else. (Fields of variable size: C30, C31.) *)
Theorem C54_settable_partial : forall t j f v b, In t hdr_tmpls -> h_parser t = HP_fields ->
  nth_error (h_fields t) j = Some f -> ~ In (h_name t, j) unsettable ->
  v <> "help"%string -> ~ ignore_word v ->
  field_text (f_parser f) v (Z.max 1 ((f_width f + 7) / 8)) = Ret (Some b) ->
  exists h f', argc_frame [h_name t; f_name f; v] = Ret (Some (3%nat, MkFrame [h] 0 false)) /\
    h = set_fields (h_fields h) t /\
    nth_error (h_fields h) j = Some f' /\ same_place f f' /\ f_val f' = Some b /\ f_skip f' = false /\
    forall i g, i <> j -> nth_error (h_fields t) i = Some g -> nth_error (h_fields h) i = Some g.
Proof. exact (fun t j f v b => one_value t j f v (Some b)). Qed.
Print Assumptions C54_settable_partial.

(** Three of them are the second field of the same name: no assignments reach them. *)
Theorem C54_refuted : forall t j f asg rest pad mask, In t hdr_tmpls -> nth_error (h_fields t) j = Some f ->
  ~ first_named (h_fields t) j (f_name f) ->
  (forall n v, In (n, v) asg -> assignable t n v) -> ends t rest ->
  exists n h pad' mask', hdr_parse_fields (words_of asg ++ rest) t pad mask = Ret (POk n h pad' mask') /\
    nth_error (h_fields h) j = Some f.
Proof. exact duplicates. Qed.
Print Assumptions C54_refuted.

Example C54_duplicates :
  (exists t f, In t hdr_tmpls /\ h_name t = "ifh-la"%string /\ nth_error (h_fields t) 34 = Some f /\ ~ first_named (h_fields t) 34 (f_name f)) /\
  (exists t f, In t hdr_tmpls /\ h_name t = "oam-ccm"%string /\ nth_error (h_fields t) 13 = Some f /\ ~ first_named (h_fields t) 13 (f_name f)) /\
  (exists t f, In t hdr_tmpls /\ h_name t = "ptp-announce"%string /\ nth_error (h_fields t) 17 = Some f /\ ~ first_named (h_fields t) 17 (f_name f)).
Proof.
  assert (K : forall n j t, find_tmpl n = Some t -> match nth_error (h_fields t) j with Some f => first_namedb (h_fields t) j (f_name f) | None => true end = false ->
    exists t f, In t hdr_tmpls /\ h_name t = n /\ nth_error (h_fields t) j = Some f /\ ~ first_named (h_fields t) j (f_name f)).
  { intros n j t H1 H2. apply find_tmpl_in in H1. destruct H1 as [H1 <-]. destruct (nth_error (h_fields t) j) as [f|] eqn:E; [|discriminate].
    exists t, f. repeat split; auto. apply first_namedb_false. auto. }
  split; [|split]; (eapply K; [vm_compute; reflexivity|vm_compute; reflexivity]).
Qed.

(** The fourth, called "ignore", is taken for the keyword when it comes first. *)
Theorem C54_keyword_refuted : exists f h, argc_frame ["profinet-rtc"; "ignore"; "5"] = Ret (Some (2%nat, f)) /\
  fr_stack f = [h] /\ match nth_error (h_fields h) 3 with Some fl => f_name fl = "ignore"%string /\ f_val fl = None | None => False end.
Proof. eexists. eexists. split; [vm_compute; reflexivity|]. split; [reflexivity|]. vm_compute. auto. Qed.
Print Assumptions C54_keyword_refuted.

Example C54_case : exists f h, argc_frame ["ctag"; "vid"; "0x123"] = Ret (Some (3%nat, f)) /\ fr_stack f = [h] /\
  match nth_error (h_fields h) 2 with Some fl => f_name fl = "vid"%string /\ f_val fl = Some [1; 35] | None => False end.
Proof. eexists. eexists. split; [vm_compute; reflexivity|]. split; [reflexivity|]. vm_compute. auto. Qed.

(** C11.  Full claim: a text that cannot be read makes the frame invalid.  That holds
    for "data" and "padding" and when the value is missing ... *)
Theorem C11_rejected_partial :
  (forall t asg n, In t hdr_tmpls -> h_parser t = HP_fields ->
     (forall n v, In (n, v) asg -> assignable t n v) ->
     n <> "help"%string -> ~ ignore_word n -> (exists f, In f (h_fields t) /\ f_name f = n) ->
     argc_frame (h_name t :: words_of asg ++ [n]) = Ret None) /\
  (forall w r, parse_uint32 w = Ret None -> argc_frame ("padding"%string :: w :: r) = Ret None) /\
  (forall ws n o, parse_var_bytes ws = Ret (n, o) -> n < 0 -> argc_frame ("data"%string :: ws) = Ret None).
Proof. exact (conj missing_value (conj bad_padding bad_data)). Qed.
Print Assumptions C11_rejected_partial.

Example C11_case : argc_frame ["eth"; "dmac"; "::1"; "smac"] = Ret None /\ parse_uint32 "1x" = Ret None /\
  parse_var_bytes ["hex"; "0"] = Ret (-1, None).
Proof. repeat split; vm_compute; reflexivity. Qed.

(** ... but is false of every single field: the frame is accepted, and the field is
    left without a value, i.e. with its default. *)
Theorem C11_refuted : forall t j f v, In t hdr_tmpls -> h_parser t = HP_fields ->
  nth_error (h_fields t) j = Some f -> ~ In (h_name t, j) unsettable ->
  v <> "help"%string -> ~ ignore_word v ->
  field_text (f_parser f) v (Z.max 1 ((f_width f + 7) / 8)) = Ret None ->
  exists h f', argc_frame [h_name t; f_name f; v] = Ret (Some (3%nat, MkFrame [h] 0 false)) /\
    h = set_fields (h_fields h) t /\
    nth_error (h_fields h) j = Some f' /\ same_place f f' /\ f_val f' = None /\ f_skip f' = false /\
    forall i g, i <> j -> nth_error (h_fields t) i = Some g -> nth_error (h_fields h) i = Some g.
Proof. exact (fun t j f v => one_value t j f v None). Qed.
Print Assumptions C11_refuted.

Example C11_refuted_case : exists f, argc_frame ["eth"; "dmac"; "xyz"] = Ret (Some (3%nat, f)) /\
  parse_bytes "xyz" 6 = Ret None /\ fr_stack f = [HDR_ETH].
Proof. eexists. split; [vm_compute; reflexivity|]. split; vm_compute; reflexivity. Qed.

(** C32.  Full claim: exactly the texts c.dd.  All of them are accepted, with the right
    value; besides, only texts whose last character is beyond '9' are: *)
Theorem C32_code_partial :
  (forall c dd, 0 <= c <= 7 -> 0 <= dd <= 31 -> coap_parse_code (code_text c dd) = Some [32 * c + dd]) /\
  (forall s b, coap_parse_code s = Some b ->
     exists c d e, 0 <= c <= 7 /\ 0 <= d <= 3 /\ 0 <= e /\ 10 * d + e <= 31 /\
       s = String (char_of (48 + c)) (String "." (String (char_of (48 + d)) (String (char_of (48 + e)) ""))) /\
       b = [32 * c + (10 * d + e)]).
Proof. exact (conj coap_code_all coap_code_only). Qed.
Print Assumptions C32_code_partial.

Theorem C32_refuted : exists s b, coap_parse_code s = Some b /\
  forall c dd, 0 <= c <= 7 -> 0 <= dd <= 31 -> s <> code_text c dd.
Proof.
  exists "0.0:"%string, [10]. split; [vm_compute; reflexivity|]. intros c dd Hc Hd E.
  assert (H := coap_code_all c dd Hc Hd). rewrite <- E in H.
  change (coap_parse_code "0.0:") with (Some [10]) in H.
  assert (H2 : 10 = 32 * c + dd) by congruence. assert (c = 0 /\ dd = 10) as [-> ->] by lia. discriminate E.
Qed.
Print Assumptions C32_refuted.

Example C32_case : code_text 2 5 = "2.05"%string /\ coap_parse_code "2.05" = Some [69] /\ coap_parse_code "2.32" = None.
Proof. repeat split. Qed.
