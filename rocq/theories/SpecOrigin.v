(** When a frame that was accepted cannot be turned into bytes (C36). *)

From Verif Require Import PTextIp Frame SpecParse.

(** Header [k] is an mld header whose checksum has to be worked out, and the first
    ipv6 header before it (if any) does not have both addresses given. *)
Definition lacks_addresses (stk : list hdr) (k : nat) : Prop :=
  exists h, nth_error stk k = Some h /\ h_name h = "mld"%string /\ given h "chksum" = false /\
  forall j ip, (j < k)%nat -> nth_error stk j = Some ip -> h_name ip = "ipv6"%string ->
    (forall i g, (i < j)%nat -> nth_error stk i = Some g -> h_name g <> "ipv6"%string) ->
    given ip "sip" = false \/ given ip "dip" = false.

(** The bytes of the headers, and four more for each of them, stay within the
    128 MiB the model represents. *)
Definition modest (stk : list hdr) : Prop := fold_right (fun h n => h_size h + 4 + n) 0 stk <= 134217728.
