(** C18 and the text versions of C13 and C17. *)
From Verif Require Import Py IterModel IterSpec Utf8Model Utf8Spec Utf8Proofs.

(** C18: exactly the strings of Unicode scalar values can be encoded (others are
    refused), decoding gives the string back, and only the UTF-8 form of a
    string decodes to it. *)
Theorem C18_encodable : forall t, (Forall scalar t <-> exists b, encode t = Ok b) /\
  (~ Forall scalar t -> encode t = Err UnicodeEncodeError).
Proof. exact (fun t => conj (encode_total t) (encode_fails t)). Qed.
Print Assumptions C18_encodable.
Theorem C18_roundtrip : forall t b, encode t = Ok b <-> decode b = Ok t.
Proof. exact (fun t b => conj (decode_encode t b) (encode_decode b t)). Qed.
Print Assumptions C18_roundtrip.
(** C18: a byte below 128 (newline in particular) occurs in the encoded form only
    as the encoding of itself. *)
Theorem C18_no_stray_newline : forall t b, encode t = Ok b ->
  Forall (fun x => x < 256)%N b /\ forall a, (a < 128)%N -> (In a b <-> In a t).
Proof. exact (fun t b E => conj (encode_bytes t b E) (fun a La => encode_In a t b La E)). Qed.
Print Assumptions C18_no_stray_newline.
(** C18: the lines of the bytes are the encoded lines of the text. *)
Theorem C18_lines : forall t ls b, text_lines t ls -> encode t = Ok b ->
  exists bs, is_lines b bs /\ Forall2 (fun l x => encode l = Ok x) ls bs.
Proof. exact text_lines_bytes. Qed.
Print Assumptions C18_lines.
(** C13 for text: whatever the chunks and the schedule, the consumer of a
    pipeline that writes the text [t] gets the lines of [t]. *)
Theorem C13_text_delivered : forall ae ls s t lines, line_steps ae line_start ls = Some s ->
  encode t = Ok (r_sent s) -> text_lines t lines ->
  prefix (texts_of (r_out s)) (map Ok lines) /\ (ended (r_out s) -> texts_of (r_out s) = map Ok lines).
Proof. exact text_delivered. Qed.
Print Assumptions C13_text_delivered.
(** C17 for text: what one python function yields, another receives. *)
Theorem C17_text_function_to_function : forall cap pipe_buf vs ts ls s,
  sends vs ts -> Forall (Forall scalar) ts -> Forall (fun t => ~ In 10%N t) ts ->
  csteps cap pipe_buf (c_init (fst (converted vs EStop))) ls = Some s ->
  prefix (texts_of (r_out (c_r s))) (map Ok ts) /\
  (ended (r_out (c_r s)) -> texts_of (r_out (c_r s)) = map Ok ts).
Proof. exact text_function_to_function. Qed.
Print Assumptions C17_text_function_to_function.

(** A string that cannot be encoded ends the output: exactly the texts before it
    have been written and the function fails with UnicodeEncodeError; nothing
    is skipped silently. *)
Theorem C17_unencodable_stops : forall vs ts v vs' t' e ls s, sends vs ts -> Forall (Forall scalar) ts ->
  v = VStr t' \/ v = VOther t' -> ~ Forall scalar t' ->
  Forall full ls -> osteps (o_init (fst (converted (vs ++ v :: vs') e)) (snd (converted (vs ++ v :: vs') e))) ls = Some s ->
  o_open s = false ->
  encode (flat_map (fun t => t ++ [10%N]) ts) = Ok (o_written s) /\ o_done s = Some (Some UnicodeEncodeError).
Proof. exact unencodable_stops. Qed.
Print Assumptions C17_unencodable_stops.
Example C17_unencodable_nonvacuous : let vs := [VStr [97]; VNone]%N in let l := vs ++ VStr [55296]%N :: [VStr [98]%N] in
  exists s, osteps (o_init (fst (converted l EStop)) (snd (converted l EStop)))
    [OWritable; OStart; OYield WFull; OWritable; OStart; OYield WFull; OWritable; OStart; OYield WFull] = Some s /\ o_open s = false /\ o_written s = [97; 10]%N.
Proof. eexists. vm_compute. auto. Qed.

(** "aé\n€" in one byte chunks, "𐍈" unterminated. *)
Example C18_nonvacuous :
  encode [97; 233; 10; 8364; 66376]%N = Ok [97; 195; 169; 10; 226; 130; 172; 240; 144; 141; 136]%N /\
  text_lines [97; 233; 10; 8364; 66376]%N [[97; 233]; [8364; 66376]]%N /\
  encode [55296]%N = Err UnicodeEncodeError /\ decode [192; 128]%N = Err UnicodeDecodeError /\
  (exists s, line_steps false line_start
     [LFeed [97; 195]%N; LNext; LReadable 2; LWake; LFeed [169; 10; 226; 130; 172; 240; 144; 141; 136]%N; LClose; LReadable 1; LWake; LReadable 5; LWake;
      LNext; LReadable 3; LWake; LReadable 0; LWake; LNext] = Some s /\
     texts_of (r_out s) = [Ok [97; 233]%N; Ok [8364; 66376]%N] /\ ended (r_out s)).
Proof.
  split; [vm_compute; reflexivity|]. split.
  { split; [repeat constructor; cbn; intuition discriminate|]. right. cbn. repeat split; discriminate. }
  split; [vm_compute; reflexivity|]. split; [vm_compute; reflexivity|].
  eexists. split; [vm_compute; reflexivity|]. split; [vm_compute; reflexivity|]. left. vm_compute. auto.
Qed.
Example C17_text_nonvacuous : exists s, csteps 8 4 (c_init (fst (converted [VStr [233]; VNone; VOther [49]; VBytes [195; 169]]%N EStop)))
  [CR LNext; CW OWritable; CW OStart; CW (OYield WFull); CR (LReadable 3); CR LWake; CW OWritable; CW OStart; CW (OYield WFull);
   CW OWritable; CW OStart; CW (OYield WFull); CR (LReadable 2); CR LNext; CW OWritable; CW OStart; CW (OYield WFull); CR (LReadable 3); CR LNext;
   CW OWritable; CW OStart; CW (OYield WFull); CR (LReadable 0); CR LNext] = Some s /\
  texts_of (r_out (c_r s)) = [Ok [233]; Ok [49]; Ok [233]]%N /\ ended (r_out (c_r s)) /\
  sends [VStr [233]; VNone; VOther [49]; VBytes [195; 169]]%N [[233]; [49]; [233]]%N.
Proof.
  eexists. split; [vm_compute; reflexivity|]. split; [vm_compute; reflexivity|]. split; [left; vm_compute; auto|].
  repeat constructor.
Qed.
