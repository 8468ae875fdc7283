From Verif Require Import Py IterModel IterSpec IterProofs IterOut Utf8Model Utf8Spec.
From Coq Require Import ZArith ZifyN ZifyBool ZifyNat Zify.
Ltac Zify.zify_post_hook ::= Z.to_euclidean_division_equations.

Ltac bools := repeat match goal with
  | |- context [N.ltb ?a ?b] => destruct (N.ltb_spec a b)
  | |- context [N.leb ?a ?b] => destruct (N.leb_spec a b)
  | H : context [N.ltb ?a ?b] |- _ => destruct (N.ltb_spec a b)
  | H : context [N.leb ?a ?b] |- _ => destruct (N.leb_spec a b)
  end.

Lemma Some_inj {A} (x y : A) : Some x = Some y -> y = x.
Proof. congruence. Qed.
Lemma enc1_scalar c : scalar c <-> exists b, enc1 c = Some b.
Proof.
  unfold scalar, enc1. split.
  - intros H. bools; cbn; eauto; try lia.
  - intros [b H]. bools; cbn in H; try discriminate; lia.
Qed.

Lemma decode_enc1 c b r : enc1 c = Some b -> decode (b ++ r) = dec_cons c (decode r).
Proof.
  unfold enc1. intros H.
  destruct (N.ltb_spec c 128) as [L|L].
  { apply Some_inj in H; subst b. cbn -[N.ltb]. destruct (N.ltb_spec c 128); [reflexivity|lia]. }
  destruct (N.ltb_spec c 2048) as [L1|L1].
  { apply Some_inj in H; subst b. remember (192 + c / 64)%N as x0 eqn:E0. remember (128 + c mod 64)%N as x1 eqn:E1.
    cbn [app decode]. unfold cont.
    destruct (N.ltb_spec x0 128); [lia|].
    destruct (N.leb_spec 194 x0); [|lia].
    destruct (N.ltb_spec x0 224); [|lia]. cbn [andb].
    destruct (N.leb_spec 128 x1); [|lia].
    destruct (N.ltb_spec x1 192); [|lia]. cbn [andb]. f_equal. lia. }
  destruct (N.ltb_spec c 65536) as [L2|L2].
  { destruct ((55296 <=? c) && (c <=? 57343))%N eqn:S; [discriminate|].
    apply Some_inj in H; subst b.
    remember (224 + c / 4096)%N as x0 eqn:E0. remember (128 + (c / 64) mod 64)%N as x1 eqn:E1. remember (128 + c mod 64)%N as x2 eqn:E2.
    cbn [app decode]. unfold cont.
    destruct (N.ltb_spec x0 128); [lia|].
    destruct (N.leb_spec 194 x0); [|lia].
    destruct (N.ltb_spec x0 224); [lia|]. cbn [andb].
    destruct (N.leb_spec 224 x0); [|lia].
    destruct (N.ltb_spec x0 240); [|lia]. cbn [andb].
    assert (E : ((x0 - 224) * 4096 + (x1 - 128) * 64 + (x2 - 128) = c)%N) by lia.
    rewrite E, S.
    destruct (N.leb_spec 128 x1); [|lia].
    destruct (N.ltb_spec x1 192); [|lia].
    destruct (N.leb_spec 128 x2); [|lia].
    destruct (N.ltb_spec x2 192); [|lia].
    destruct (N.leb_spec 2048 c); [|lia]. reflexivity. }
  destruct (N.ltb_spec c 1114112) as [L3|L3]; [|discriminate].
  apply Some_inj in H; subst b.
  remember (240 + c / 262144)%N as x0 eqn:E0. remember (128 + (c / 4096) mod 64)%N as x1 eqn:E1.
  remember (128 + (c / 64) mod 64)%N as x2 eqn:E2. remember (128 + c mod 64)%N as x3 eqn:E3.
  cbn [app decode]. unfold cont.
  destruct (N.ltb_spec x0 128); [lia|].
  destruct (N.leb_spec 194 x0); [|lia].
  destruct (N.ltb_spec x0 224); [lia|]. cbn [andb].
  destruct (N.leb_spec 224 x0); [|lia].
  destruct (N.ltb_spec x0 240); [lia|]. cbn [andb].
  destruct (N.leb_spec 240 x0); [|lia].
  destruct (N.ltb_spec x0 245); [|lia]. cbn [andb].
  assert (E : ((x0 - 240) * 262144 + (x1 - 128) * 4096 + (x2 - 128) * 64 + (x3 - 128) = c)%N) by lia.
  rewrite E.
  destruct (N.leb_spec 128 x1); [|lia].
  destruct (N.ltb_spec x1 192); [|lia].
  destruct (N.leb_spec 128 x2); [|lia].
  destruct (N.ltb_spec x2 192); [|lia].
  destruct (N.leb_spec 128 x3); [|lia].
  destruct (N.ltb_spec x3 192); [|lia].
  destruct (N.leb_spec 65536 c); [|lia].
  destruct (N.ltb_spec c 1114112); [|lia]. reflexivity.
Qed.

Lemma encode_total t : Forall scalar t <-> exists b, encode t = Ok b.
Proof.
  induction t as [|c t IH]; cbn; [split; [eauto|constructor]|].
  split.
  - intros H. inversion H as [|? ? Hc Ht]; subst. apply enc1_scalar in Hc as [b ->].
    apply IH in Ht as [b' ->]. cbn. eauto.
  - intros [b H]. destruct (enc1 c) eqn:E; [|discriminate].
    destruct (encode t) eqn:E2; [|discriminate].
    constructor; [apply enc1_scalar; eauto|apply IH; eauto].
Qed.
Lemma encode_fails t : ~ Forall scalar t -> encode t = Err UnicodeEncodeError.
Proof.
  induction t as [|c t IH]; cbn; intros H; [exfalso; auto|].
  destruct (enc1 c) eqn:E; [|reflexivity].
  rewrite IH; [reflexivity|]. intros X. apply H. constructor; [|exact X]. apply enc1_scalar. eauto.
Qed.

Lemma decode_encode t b : encode t = Ok b -> decode b = Ok t.
Proof.
  revert b; induction t as [|c t IH]; cbn [encode]; intros b H; [injection H as <-; reflexivity|].
  destruct (enc1 c) eqn:E; [|discriminate]. destruct (encode t) eqn:E2; [|discriminate].
  injection H as <-. rewrite (decode_enc1 _ _ _ E), (IH _ eq_refl). reflexivity.
Qed.

Lemma dec_cons_ok c r t : dec_cons c r = Ok t -> exists t', r = Ok t' /\ t = c :: t'.
Proof. destruct r; cbn; [|discriminate]. intros H. injection H as <-. eauto. Qed.

Lemma encode_decode_aux n : forall b t, List.length b <= n -> decode b = Ok t -> encode t = Ok b.
Proof.
  induction n as [|n IH]; intros b t L H.
  { destruct b; [|cbn in L; lia]. injection H as <-. reflexivity. }
  destruct b as [|b0 r0]; [injection H as <-; reflexivity|].
  cbn [decode] in H.
  destruct (N.ltb_spec b0 128) as [L0|L0].
  { apply dec_cons_ok in H as [t' [H ->]]. cbn in L. cbn [encode]. unfold enc1.
    destruct (N.ltb_spec b0 128); [|lia]. rewrite (IH r0 t'); [reflexivity|lia|exact H]. }
  destruct ((194 <=? b0) && (b0 <? 224))%N eqn:C1.
  { destruct r0 as [|b1 r1]; [discriminate|]. unfold cont in H.
    destruct ((128 <=? b1) && (b1 <? 192))%N eqn:C2; [|discriminate].
    apply dec_cons_ok in H as [t' [H ->]]. cbn in L. cbn [encode].
    assert (E : enc1 ((b0 - 192) * 64 + (b1 - 128))%N = Some [b0; b1]).
    { clear H IH L t' n. rewrite !andb_true_iff, ?N.leb_le, ?N.ltb_lt in C1, C2.
      unfold enc1. set (c := ((b0 - 192) * 64 + (b1 - 128))%N) in *.
      destruct (N.ltb_spec c 128); [lia|]. destruct (N.ltb_spec c 2048); [|lia].
      f_equal. f_equal; [lia|]. f_equal. lia. }
    rewrite E, (IH r1 t'); [reflexivity|lia|exact H]. }
  destruct ((224 <=? b0) && (b0 <? 240))%N eqn:C2.
  { destruct r0 as [|b1 [|b2 r2]]; [discriminate..|]. unfold cont in H.
    match type of H with (if ?c then _ else _) = _ => destruct c eqn:C3; [|discriminate] end.
    apply dec_cons_ok in H as [t' [H ->]]. cbn in L. cbn [encode].
    assert (E : enc1 ((b0 - 224) * 4096 + (b1 - 128) * 64 + (b2 - 128))%N = Some [b0; b1; b2]).
    { clear H IH L t' n L0 C1. rewrite !andb_true_iff, negb_true_iff, ?N.leb_le, ?N.ltb_lt in C3.
      rewrite !andb_true_iff, ?N.leb_le, ?N.ltb_lt in C2. destruct C3 as [C3 Sg].
      unfold enc1. set (c := ((b0 - 224) * 4096 + (b1 - 128) * 64 + (b2 - 128))%N) in *. rewrite Sg.
      destruct (N.ltb_spec c 128); [lia|]. destruct (N.ltb_spec c 2048); [lia|]. destruct (N.ltb_spec c 65536); [|lia].
      f_equal. f_equal; [lia|]. f_equal; [lia|]. f_equal. lia. }
    rewrite E, (IH r2 t'); [reflexivity|lia|exact H]. }
  destruct ((240 <=? b0) && (b0 <? 245))%N eqn:C3; [|discriminate].
  destruct r0 as [|b1 [|b2 [|b3 r3]]]; [discriminate..|]. unfold cont in H.
  match type of H with (if ?c then _ else _) = _ => destruct c eqn:C4; [|discriminate] end.
  apply dec_cons_ok in H as [t' [H ->]]. cbn in L. cbn [encode].
  assert (E : enc1 ((b0 - 240) * 262144 + (b1 - 128) * 4096 + (b2 - 128) * 64 + (b3 - 128))%N = Some [b0; b1; b2; b3]).
  { clear H IH L L0 t' n. rewrite !andb_true_iff, ?N.leb_le, ?N.ltb_lt in C3, C4. clear C1 C2.
    unfold enc1. set (c := ((b0 - 240) * 262144 + (b1 - 128) * 4096 + (b2 - 128) * 64 + (b3 - 128))%N) in *.
    destruct (N.ltb_spec c 128); [lia|]. destruct (N.ltb_spec c 2048); [lia|]. destruct (N.ltb_spec c 65536); [lia|].
    destruct (N.ltb_spec c 1114112); [|lia].
    f_equal. f_equal; [lia|]. f_equal; [lia|]. f_equal; [lia|]. f_equal. lia. }
  rewrite E, (IH r3 t'); [reflexivity|lia|exact H].
Qed.
Lemma encode_decode b t : decode b = Ok t -> encode t = Ok b.
Proof. apply (encode_decode_aux (List.length b)). lia. Qed.

Lemma enc1_bytes c b : enc1 c = Some b -> Forall (fun x => x < 256)%N b.
Proof.
  unfold enc1. intros H.
  destruct (N.ltb_spec c 128) as [L|L]; [apply Some_inj in H; subst b; repeat constructor; lia|].
  destruct (N.ltb_spec c 2048) as [L1|L1]; [apply Some_inj in H; subst b; repeat constructor; lia|].
  destruct (N.ltb_spec c 65536) as [L2|L2].
  { destruct ((55296 <=? c) && (c <=? 57343))%N; [discriminate|]. apply Some_inj in H; subst b; repeat constructor; lia. }
  destruct (N.ltb_spec c 1114112) as [L3|L3]; [|discriminate]. apply Some_inj in H; subst b; repeat constructor; lia.
Qed.
(** ASCII characters are themselves, the others have no ASCII byte. *)
Lemma enc1_ascii c b : enc1 c = Some b -> (c < 128 /\ b = [c])%N \/ (128 <= c /\ Forall (fun x => 128 <= x) b)%N.
Proof.
  unfold enc1. intros H.
  destruct (N.ltb_spec c 128) as [L|L]; [apply Some_inj in H; subst b; auto|].
  right. split; [exact L|].
  destruct (N.ltb_spec c 2048) as [L1|L1]; [apply Some_inj in H; subst b; repeat constructor; lia|].
  destruct (N.ltb_spec c 65536) as [L2|L2].
  { destruct ((55296 <=? c) && (c <=? 57343))%N; [discriminate|]. apply Some_inj in H; subst b; repeat constructor; lia. }
  destruct (N.ltb_spec c 1114112) as [L3|L3]; [|discriminate]. apply Some_inj in H; subst b; repeat constructor; lia.
Qed.
Lemma encode_bytes t b : encode t = Ok b -> Forall (fun x => x < 256)%N b.
Proof.
  revert b; induction t as [|c t IH]; cbn [encode]; intros b H; [injection H as <-; constructor|].
  destruct (enc1 c) eqn:E; [|discriminate]. destruct (encode t) eqn:E2; [|discriminate].
  injection H as <-. apply Forall_app. split; [eapply enc1_bytes; eauto|auto].
Qed.
Lemma encode_In a t b : (a < 128)%N -> encode t = Ok b -> In a b <-> In a t.
Proof.
  intros La. revert b; induction t as [|c t IH]; cbn [encode]; intros b H; [injection H as <-; reflexivity|].
  destruct (enc1 c) eqn:E; [|discriminate]. destruct (encode t) eqn:E2; [|discriminate].
  injection H as <-. rewrite in_app_iff, (IH _ eq_refl). cbn.
  destruct (enc1_ascii _ _ E) as [[L ->]|[L F]]; cbn; [intuition|].
  rewrite Forall_forall in F. split; [|intuition; lia].
  intros [X|X]; [|auto]. specialize (F _ X). cbn in F. lia.
Qed.
Lemma encode_app t1 t2 b1 b2 : encode t1 = Ok b1 -> encode t2 = Ok b2 -> encode (t1 ++ t2) = Ok (b1 ++ b2).
Proof.
  revert b1; induction t1 as [|c t IH]; cbn [encode app]; intros b1 H H2; [injection H as <-; exact H2|].
  destruct (enc1 c) eqn:E; [|discriminate]. destruct (encode t) eqn:E2; [|discriminate].
  injection H as <-. rewrite (IH _ eq_refl H2). cbn. now rewrite app_assoc.
Qed.
Lemma encode_inj t1 t2 b : encode t1 = Ok b -> encode t2 = Ok b -> t1 = t2.
Proof. intros H1 H2. apply decode_encode in H1, H2. congruence. Qed.
Lemma encode_app_inv t1 t2 b : encode (t1 ++ t2) = Ok b -> exists b1 b2, encode t1 = Ok b1 /\ encode t2 = Ok b2 /\ b = b1 ++ b2.
Proof.
  revert b; induction t1 as [|c t IH]; cbn [encode app]; intros b H; [exists [], b; auto|].
  destruct (enc1 c) eqn:E; [|discriminate]. destruct (encode (t ++ t2)) eqn:E2; [|discriminate].
  injection H as <-. destruct (IH _ eq_refl) as (b1 & b2 & -> & -> & ->). cbn. eexists _, _. split; [reflexivity|]. split; [reflexivity|]. now rewrite app_assoc.
Qed.
Lemma encode_last t b : encode t = Ok b -> t <> [] -> last t 0%N <> nl -> b <> [] /\ last b 0%N <> nl.
Proof.
  intros H N0 L. destruct (exists_last N0) as [t' [c ->]].
  apply encode_app_inv in H as (b1 & b2 & H1 & H2 & ->). rewrite last_last in L.
  cbn [encode] in H2. destruct (enc1 c) eqn:E; [|discriminate]. cbn in H2. injection H2 as <-. rewrite app_nil_r.
  assert (X : exists y z, b = y ++ [z] /\ z <> nl).
  { destruct (enc1_ascii _ _ E) as [[Lc ->]|[Lc F]]; [exists [], c; auto|].
    destruct b as [|x b]; [exfalso|].
    - unfold enc1 in E. repeat match type of E with (if ?q then _ else _) = _ => destruct q end; discriminate.
    - destruct (@exists_last _ (x :: b)) as [y [z Hz]]; [discriminate|]. rewrite Hz in *. exists y, z. split; [reflexivity|].
      apply Forall_app in F as [_ F]. inversion F; subst. unfold nl. lia. }
  destruct X as (y & z & -> & Hz). rewrite app_assoc, last_last. split; [|exact Hz]. destruct (b1 ++ y); discriminate.
Qed.

Lemma encode_lines t ls : encode (List.concat (map (fun l => l ++ [nl]) ls)) = Ok t ->
  exists bs, Forall2 (fun l x => encode l = Ok x) ls bs /\ List.concat (map (fun l => l ++ [nl]) bs) = t.
Proof.
  revert t; induction ls as [|l ls IH]; cbn [map List.concat]; intros t H.
  - injection H as <-. exists []. split; [constructor|reflexivity].
  - apply encode_app_inv in H as (b1 & b2 & H1 & H2 & ->).
    apply encode_app_inv in H1 as (b3 & b4 & H3 & H4 & ->).
    cbn in H4. injection H4 as <-. destruct (IH _ H2) as [bs [F <-]].
    exists (b3 :: bs). split; [constructor; auto|reflexivity].
Qed.

Lemma text_lines_bytes t ls b : text_lines t ls -> encode t = Ok b ->
  exists bs, is_lines b bs /\ Forall2 (fun l x => encode l = Ok x) ls bs.
Proof.
  intros [Hn Hc] He.
  assert (X : exists bs, Forall2 (fun l x => encode l = Ok x) ls bs /\
     (List.concat (map (fun l => l ++ [nl]) bs) = b \/
      (List.concat (map (fun l => l ++ [nl]) bs) = b ++ [nl] /\ b <> [] /\ last b 0%N <> nl))).
  { destruct Hc as [Hc|(Hc & Ne & La)].
    - rewrite <- Hc in He. destruct (encode_lines _ _ He) as [bs [F E]]. eauto.
    - assert (He2 : encode (t ++ [nl]) = Ok (b ++ [nl])) by (apply encode_app; auto).
      unfold nl in He2 at 1. rewrite <- Hc in He2. destruct (encode_lines _ _ He2) as [bs [F E]]. exists bs. split; [exact F|]. right. split; [exact E|].
      eapply encode_last; eauto. }
  destruct X as (bs & F & E). exists bs. split; [|exact F]. split; [|exact E].
  clear -Hn F. induction F as [|l x ls bs E F IH]; [constructor|].
  inversion Hn; subst. constructor; [|auto]. rewrite (encode_In nl l x); [assumption|unfold nl; lia|exact E].
Qed.

Lemma texts_decode out : texts_of out = map decode (items_of out).
Proof. unfold texts_of, items_of. induction out as [|[b| |] out IH]; cbn; [reflexivity| |exact IH|exact IH]. now rewrite IH. Qed.
Lemma decode_all ls bs : Forall2 (fun l x => encode l = Ok x) ls bs -> map decode bs = map Ok ls.
Proof. induction 1 as [|l x ls bs E F IH]; cbn; [reflexivity|]. now rewrite (decode_encode _ _ E), IH. Qed.
Lemma prefix_map {A B} (f : A -> B) a b : prefix a b -> prefix (map f a) (map f b).
Proof. intros [c ->]. exists (map f c). now rewrite map_app. Qed.

Lemma text_delivered ae ls s t lines : line_steps ae line_start ls = Some s ->
  encode t = Ok (r_sent s) -> text_lines t lines ->
  prefix (texts_of (r_out s)) (map Ok lines) /\ (ended (r_out s) -> texts_of (r_out s) = map Ok lines).
Proof.
  intros S E L. destruct (text_lines_bytes _ _ _ L E) as (bs & Hb & F).
  destruct (lines_delivered ae ls s bs S Hb) as [P Q].
  rewrite texts_decode, <- (decode_all _ _ F). split; [now apply prefix_map|].
  intros X. now rewrite (Q X).
Qed.

Lemma sends_converted vs ts e : sends vs ts -> Forall (Forall scalar) ts ->
  exists items bs, converted vs e = (items, e) /\ values items = bs /\ Forall2 (fun l x => encode l = Ok x) ts bs.
Proof.
  intros H. revert e. induction H as [|vs ts H IH|v t vs ts M H IH]; intros e F.
  - exists [], []. repeat split. constructor.
  - destruct (IH e F) as (items & bs & E & V & F2). exists (None :: items), bs. cbn. rewrite E. auto.
  - inversion F as [|? ? St Ss]; subst. destruct (IH e Ss) as (items & bs & E & V & F2).
    apply encode_total in St as [b Eb]. exists (Some b :: items), (b :: bs).
    assert (C : convert v = Ok (Some b)). { destruct M as [t|t|b' t E']; cbn; [now rewrite Eb..|]. congruence. }
    cbn. rewrite C, E. cbn. fold (values items). rewrite V. auto.
Qed.
Lemma text_function_to_function cap pipe_buf vs ts ls s :
  sends vs ts -> Forall (Forall scalar) ts -> Forall (fun t => ~ In 10%N t) ts ->
  csteps cap pipe_buf (c_init (fst (converted vs EStop))) ls = Some s ->
  prefix (texts_of (r_out (c_r s))) (map Ok ts) /\
  (ended (r_out (c_r s)) -> texts_of (r_out (c_r s)) = map Ok ts).
Proof.
  intros Hs Sc Nn Hc. destruct (sends_converted vs ts EStop Hs Sc) as (items & bs & E & V & F).
  rewrite E in Hc. cbn in Hc.
  destruct (function_to_function cap pipe_buf items ls s) as [P Q]; [|exact Hc|].
  { rewrite V. clear -F Nn. induction F as [|l x ls bs E F IH]; [constructor|]. inversion Nn; subst. constructor; [|auto].
    rewrite (encode_In nl l x); [assumption|unfold nl; lia|exact E]. }
  rewrite V in P, Q. rewrite texts_decode, <- (decode_all _ _ F). split; [now apply prefix_map|]. intros X. now rewrite (Q X).
Qed.

(** A value that cannot be encoded ends the output with an error after the
    values before it have been written. *)
Lemma converted_stops vs v vs' e x : (forall u, In u vs -> exists o, convert u = Ok o) -> convert v = Err x ->
  exists items, converted (vs ++ v :: vs') e = (items, ERaise x) /\ Forall2 (fun u o => convert u = Ok o) vs items.
Proof.
  induction vs as [|u vs IH]; cbn [app converted]; intros A B; [rewrite B; exists []; auto|].
  destruct (A u) as [o Ho]; [now left|]. rewrite Ho.
  destruct IH as [items [-> F]]; [intros; apply A; now right|exact B|]. exists (o :: items). auto.
Qed.
Lemma encode_rendered ts bs : Forall2 (fun l x => encode l = Ok x) ts bs -> forall items, values items = bs ->
  encode (flat_map (fun t => t ++ [10%N]) ts) = Ok (rendered items).
Proof.
  intros F items V. subst bs.
  assert (R : rendered items = flat_map (fun b => b ++ [nl]) (values items)).
  { clear. unfold rendered, values. induction items as [|[b|] items IH]; cbn; [reflexivity| |exact IH]. now rewrite IH. }
  rewrite R. clear R. induction F as [|l x ls xs E F IH]; [reflexivity|]. cbn [flat_map].
  apply encode_app; [|exact IH]. apply encode_app; [exact E|reflexivity].
Qed.
Lemma unencodable_stops vs ts v vs' t' e ls s : sends vs ts -> Forall (Forall scalar) ts ->
  v = VStr t' \/ v = VOther t' -> ~ Forall scalar t' ->
  Forall full ls -> osteps (o_init (fst (converted (vs ++ v :: vs') e)) (snd (converted (vs ++ v :: vs') e))) ls = Some s ->
  o_open s = false ->
  encode (flat_map (fun t => t ++ [10%N]) ts) = Ok (o_written s) /\ o_done s = Some (Some UnicodeEncodeError).
Proof.
  intros Hs Sc Hv Nv Fu Ho Hc.
  destruct (sends_converted vs ts e Hs Sc) as (items & bs & E & V & F).
  assert (Cv : convert v = Err UnicodeEncodeError).
  { destruct Hv as [->| ->]; cbn; now rewrite (encode_fails t' Nv). }
  assert (X : forall vs items, converted vs e = (items, e) -> (forall u, In u vs -> exists o, convert u = Ok o) -> converted (vs ++ v :: vs') e = (items, ERaise UnicodeEncodeError)).
  { clear -Cv. induction vs as [|u vs IH]; intros items E A; cbn in E |- *.
    - injection E as <-. now rewrite Cv.
    - destruct (A u) as [o Hu]; [now left|]. rewrite Hu in E |- *. destruct (converted vs e) as [os e'] eqn:Q.
      injection E as <- ->. rewrite (IH os); auto. intros w Hw. apply A. now right. }
  rewrite (X vs items E) in Ho.
  - cbn [fst snd] in Ho. destruct (items_written _ _ _ _ Fu Ho) as (_ & _ & _ & W). destruct (W Hc) as (Wr & _ & D).
    rewrite Wr, D. split; [|reflexivity]. now apply (encode_rendered ts bs).
  - clear -Hs Sc. induction Hs as [|vs ts H IH|u t vs ts M H IH]; intros w Hw; [destruct Hw| |].
    + destruct Hw as [<-|Hw]; [exists None; reflexivity|auto].
    + inversion Sc as [|? ? St Ss]; subst. destruct Hw as [<-|Hw]; [|auto].
      apply encode_total in St as [b Eb]. destruct M; cbn; rewrite ?Eb; eexists; reflexivity.
Qed.
