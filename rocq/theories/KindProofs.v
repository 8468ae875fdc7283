(** The kinds of functions that work do what they should. *)
From Verif Require Import Py IterModel IterSpec IterOut NetModel NetSpec Utf8Model Utf8Proofs MixModel MixSpec KindModel KindSpec.

Definition fn_open (f : fn) : fn := match f with FAsk k => FAsk k | FGive v k => FGive v k | FEnd e => FEnd e end.
Lemma fn_open_eq f : f = fn_open f.
Proof. now destruct f. Qed.

Definition are_texts (bs : list bytes) (ts : list text) : Prop := Forall2 (fun b t => decode b = Ok t) bs ts.

Definition give_conv (v : pyval) (k : sgen) : fn :=
  match convert v with Ok o => FGive o (sync_fn (inl k)) | Err e => FEnd (ERaise e) end.
Lemma sync_give v k : sync_fn (inl (SGive v k)) = give_conv v k.
Proof. etransitivity; [apply fn_open_eq|]. unfold give_conv, fn_open, sync_fn. destruct (convert v); reflexivity. Qed.
Lemma sync_coro c k : sync_fn (inl (SCoro c k)) = sync_fn (inr (c, k)).
Proof. etransitivity; [apply fn_open_eq|]. symmetry. etransitivity; [apply fn_open_eq|]. reflexivity. Qed.
Lemma sync_return v k : sync_fn (inr (CReturn v, k)) = give_conv v k.
Proof. etransitivity; [apply fn_open_eq|]. unfold give_conv, fn_open, sync_fn. destruct (convert v); reflexivity. Qed.
Lemma sync_raise e k : sync_fn (inr (CRaise e, k)) = FEnd (ERaise e).
Proof. etransitivity; [apply fn_open_eq|]. reflexivity. Qed.
Lemma sync_ask f k : sync_fn (inr (CAsk f, k)) = FAsk (fun o => match decoded o with Ok t => sync_fn (inr (f t, k)) | Err e => FEnd (ERaise e) end).
Proof. etransitivity; [apply fn_open_eq|]. reflexivity. Qed.
Lemma sync_end e : sync_fn (inl (SEnd e)) = FEnd e.
Proof. etransitivity; [apply fn_open_eq|]. reflexivity. Qed.
Lemma sync_loop k : sync_fn (inl (SLoop k)) = FEnd (ERaise TypeError).
Proof. etransitivity; [apply fn_open_eq|]. reflexivity. Qed.

Lemma returns_fdoes c ls v ls' : returns c ls v ls' -> forall bs, are_texts bs ls ->
  exists bs', are_texts bs' ls' /\ forall k vals e, fdoes (give_conv v k) bs' vals e -> fdoes (sync_fn (inr (c, k))) bs vals e.
Proof.
  induction 1 as [v ls|k l ls v ls' H IH|k v ls' H IH]; intros bs Hb.
  - exists bs. split; [exact Hb|]. intros k vals e X. now rewrite sync_return.
  - inversion Hb as [|b t bs1 ts1 E1 E2]; subst. destruct (IH _ E2) as (bs' & A & B). exists bs'. split; [exact A|].
    intros k0 vals e X. rewrite sync_ask. constructor. cbn. rewrite E1. cbn. now apply B.
  - inversion Hb; subst. destruct (IH _ Hb) as (bs' & A & B). exists bs'. split; [exact A|].
    intros k0 vals e X. rewrite sync_ask. apply fdoes_over. cbn. now apply B.
Qed.
Lemma raises_fdoes c ls e : raises c ls e -> forall bs, are_texts bs ls -> forall k, fdoes (sync_fn (inr (c, k))) bs [] (ERaise e).
Proof.
  induction 1 as [e ls|k l ls e H IH|k e H IH]; intros bs Hb k0.
  - rewrite sync_raise. constructor.
  - inversion Hb as [|b t bs1 ts1 E1 E2]; subst. rewrite sync_ask. constructor. cbn. rewrite E1. cbn. now apply IH.
  - inversion Hb; subst. rewrite sync_ask. apply fdoes_over. cbn. now apply IH.
Qed.
Lemma give_fdoes v k bs vs e : fdoes (sync_fn (inl k)) bs (fst (converted vs e)) (snd (converted vs e)) ->
  fdoes (give_conv v k) bs (fst (converted (v :: vs) e)) (snd (converted (v :: vs) e)).
Proof.
  intros H. unfold give_conv. cbn [converted]. destruct (convert v) as [o|x]; [|constructor]. destruct (converted vs e) as [os e']. cbn [fst snd] in *. now constructor.
Qed.
Lemma yields_fdoes g ls vs e : yields false g ls vs e -> forall bs, are_texts bs ls ->
  fdoes (sync_fn (inl g)) bs (fst (converted vs e)) (snd (converted vs e)).
Proof.
  induction 1 as [e ls|v k ls vs e H IH|c k ls v ls' vs e Hr H IH|c k ls e Hr| |]; intros bs Hb; try discriminate.
  - rewrite sync_end. constructor.
  - rewrite sync_give. apply give_fdoes. now apply IH.
  - rewrite sync_coro. destruct (returns_fdoes _ _ _ _ Hr bs Hb) as (bs' & A & B). apply B. apply give_fdoes. now apply IH.
  - rewrite sync_coro. now apply raises_fdoes with ls.
Qed.
Lemma async_end e : async_fn (AEnd e) = FEnd e.
Proof. etransitivity; [apply fn_open_eq|]. reflexivity. Qed.
Lemma async_give v k : async_fn (AGive v k) = match convert v with Ok o => FGive o (async_fn k) | Err e => FEnd (ERaise e) end.
Proof. etransitivity; [apply fn_open_eq|]. unfold fn_open, async_fn. destruct (convert v); reflexivity. Qed.
Lemma async_ask f : async_fn (AAsk f) = FAsk (fun o => match decoded o with Ok t => async_fn (f t) | Err e => FEnd (ERaise e) end).
Proof. etransitivity; [apply fn_open_eq|]. reflexivity. Qed.
Lemma ayields_fdoes g ls vs e : ayields g ls vs e -> forall bs, are_texts bs ls ->
  fdoes (async_fn g) bs (fst (converted vs e)) (snd (converted vs e)).
Proof.
  induction 1 as [e ls|v k ls vs e H IH|k l ls vs e H IH|k vs e H IH]; intros bs Hb.
  - rewrite (async_end e). constructor.
  - rewrite async_give. cbn [converted]. destruct (convert v) as [o|x]; [|constructor]. specialize (IH bs Hb). destruct (converted vs e) as [os e']. cbn [fst snd] in *. now constructor.
  - inversion Hb as [|b t bs1 ts1 E1 E2]; subst. rewrite async_ask. constructor. cbn. rewrite E1. cbn. now apply IH.
  - inversion Hb; subst. rewrite async_ask. apply fdoes_over. cbn. now apply IH.
Qed.
Lemma elems_yields l ls vs e : elems l ls vs e -> yields false (seq_gen l) ls vs e.
Proof. induction 1; cbn; econstructor; eauto. Qed.

(** Running the whole function; [yields true] and [yields false] agree where the second
    is defined. *)
Lemma returns_fun c ls v ls' : returns c ls v ls' -> forall v2 ls2, returns c ls v2 ls2 -> v = v2 /\ ls' = ls2.
Proof. induction 1; intros v2 ls2 H2; inversion H2; subst; auto. Qed.
Lemma returns_raises c ls v ls' : returns c ls v ls' -> forall e, raises c ls e -> False.
Proof. induction 1; intros e H2; inversion H2; subst; eauto. Qed.
Lemma raises_fun c ls e : raises c ls e -> forall e2, raises c ls e2 -> e = e2.
Proof. induction 1; intros e2 H2; inversion H2; subst; auto. Qed.
Lemma yields_same g ls vs e : yields false g ls vs e -> forall vs2 e2, yields true g ls vs2 e2 -> vs = vs2 /\ e = e2.
Proof.
  induction 1 as [e ls|v k ls vs e H IH|c k ls v ls' vs e Hr H IH|c k ls e Hr| |]; intros vs2 e2 H2; try discriminate; inversion H2; subst; auto.
  - match goal with B : yields true k _ _ _ |- _ => destruct (IH _ _ B) as [-> ->] end. auto.
  - match goal with A : returns c ls ?v1 ?l1, B : yields true k ?l1 _ _ |- _ => destruct (returns_fun _ _ _ _ Hr _ _ A) as [<- <-]; destruct (IH _ _ B) as [-> ->] end. auto.
  - exfalso. eapply returns_raises; eauto.
  - exfalso. eapply returns_raises; eauto.
  - match goal with A : raises c ls ?x |- _ => rewrite (raises_fun _ _ _ Hr _ A) end. auto.
Qed.
Lemma works_fdoes o ls vs e bs : gives o ls vs e -> works o ls -> are_texts bs ls ->
  fdoes (obj_fn o) bs (fst (converted vs e)) (snd (converted vs e)).
Proof.
  intros Hg Hw Hb. inversion Hw; subst; inversion Hg; subst; cbn [obj_fn].
  - match goal with A : yields false _ _ ?v1 ?e1, B : yields true _ _ _ _ |- _ => destruct (yields_same _ _ _ _ A _ _ B) as [<- <-]; now apply yields_fdoes with ls end.
  - now apply ayields_fdoes with ls.
  - apply yields_fdoes with ls; [now apply elems_yields|exact Hb].
  - apply yields_fdoes with ls; [|exact Hb]. econstructor; [eassumption|constructor].
  - apply yields_fdoes with ls; [|exact Hb]. now apply yd_raise.
  - apply yields_fdoes with ls; [|exact Hb]. constructor. constructor.
Qed.

Lemma rendered_cons v vs : rendered (v :: vs) = (match v with Some b => b ++ [nl] | None => [] end) ++ rendered vs.
Proof. reflexivity. Qed.
Lemma written_rendered vs b : written_as vs b -> forall e, rendered (fst (converted vs e)) = b.
Proof.
  induction 1 as [|vs b H IH|x vs b H IH|t x vs b E H IH|t x vs b E H IH|t x vs E|t x vs E]; intros e; cbn [converted convert]; try rewrite E; cbn [bind_res];
    try (specialize (IH e); destruct (converted vs e) as [os e']; cbn [fst] in *; rewrite rendered_cons, IH, ?app_nil_l, <- ?app_assoc); reflexivity.
Qed.

(** The kinds that do not work. *)
Lemma nothing_fdoes e lines : fdoes (FEnd e) lines [] e.
Proof. constructor. Qed.
(** A string: one line per character. *)
Lemma vals_yields l ls : yields false (seq_gen (map EVal l)) ls l EStop.
Proof. induction l; cbn; constructor; auto. Qed.
Definition chars_out (t : text) : list pyval := map (fun c => VStr [c]) t.
Lemma str_fdoes t bs : fdoes (obj_fn (OStr t)) bs (fst (converted (chars_out t) EStop)) (snd (converted (chars_out t) EStop)).
Proof.
  cbn [obj_fn]. assert (E : map (fun c => EVal (VStr [c])) t = map EVal (chars_out t)) by (unfold chars_out; now rewrite map_map). rewrite E.
  clear E. generalize (chars_out t). intros l. induction l as [|v l IH]; cbn [map seq_gen].
  - rewrite sync_end. constructor.
  - rewrite sync_give. now apply give_fdoes.
Qed.
Lemma chars_length t b : encode t = Ok b -> List.length (rendered (fst (converted (chars_out t) EStop))) = List.length b + List.length t.
Proof.
  revert b. induction t as [|c t IH]; intros b H; [injection H as <-; reflexivity|].
  apply (encode_app_inv [c] t) in H as (b1 & b2 & H1 & H2 & ->). cbn [chars_out map converted convert]. rewrite H1. cbn [bind_res].
  fold (chars_out t). specialize (IH _ H2). destruct (converted (chars_out t) EStop) as [os e']. cbn [fst] in *. rewrite rendered_cons, !app_length, IH. cbn [List.length]. lia.
Qed.
Definition nums_out (b : bytes) : list pyval := map (fun n => VOther (byte_str n)) b.
Lemma bytes_fdoes b bs : fdoes (obj_fn (OBytes b)) bs (fst (converted (nums_out b) EStop)) (snd (converted (nums_out b) EStop)).
Proof.
  cbn [obj_fn]. assert (E : map (fun n => EVal (VOther (byte_str n))) b = map EVal (nums_out b)) by (unfold nums_out; now rewrite map_map). rewrite E.
  clear E. generalize (nums_out b). intros l. induction l as [|v l IH]; cbn [map seq_gen].
  - rewrite sync_end. constructor.
  - rewrite sync_give. now apply give_fdoes.
Qed.
Lemma digits_ascii n : (n < 256)%N -> Forall (fun c => c < 128)%N (byte_str n) /\ 1 <= List.length (byte_str n) /\ (List.length (byte_str n) = 1 -> byte_str n = [48 + n]%N).
Proof.
  intros L. unfold byte_str. destruct (n <? 10)%N eqn:E1; [apply N.ltb_lt in E1; split; [constructor; [lia|constructor]|split; [cbn; lia|auto] ]|].
  apply N.ltb_ge in E1. assert (n / 10 < 26)%N by (apply N.div_lt_upper_bound; lia). assert (n mod 10 < 10)%N by (apply N.mod_lt; lia). 
  destruct (n <? 100)%N.
  - split; [repeat constructor; lia|split; [cbn; lia|discriminate] ].
  - assert (n / 100 < 3)%N by (apply N.div_lt_upper_bound; lia). assert (n / 10 mod 10 < 10)%N by (apply N.mod_lt; lia). split; [repeat constructor; lia|split; [cbn; lia|discriminate] ].
Qed.
Lemma encode_ascii t : Forall (fun c => c < 128)%N t -> encode t = Ok t.
Proof.
  induction 1 as [|c t H _ IH]; [reflexivity|]. cbn [encode]. unfold enc1. apply N.ltb_lt in H. rewrite H, IH. reflexivity.
Qed.
Lemma nums_rendered b : Forall (fun n => n < 256)%N b -> rendered (fst (converted (nums_out b) EStop)) = List.concat (map (fun n => byte_str n ++ [nl]) b).
Proof.
  induction 1 as [|n b H _ IH]; [reflexivity|]. cbn [nums_out map converted convert]. destruct (digits_ascii n H) as (A & _ & _). rewrite (encode_ascii _ A). cbn [bind_res].
  fold (nums_out b). destruct (converted (nums_out b) EStop) as [os e']. cbn [fst] in *. rewrite rendered_cons, IH. reflexivity.
Qed.
Lemma nums_differ b : Forall (fun n => n < 256)%N b -> rendered (fst (converted (nums_out b) EStop)) <> b ++ [10%N].
Proof.
  intros H. rewrite nums_rendered by exact H. intros E.
  assert (L : 2 * List.length b <= List.length (List.concat (map (fun n => byte_str n ++ [nl]) b))).
  { clear E. induction H as [|n b H _ IH]; [cbn; lia|]. cbn [map List.concat]. rewrite !app_length. destruct (digits_ascii n H) as (_ & A & _). cbn [List.length]. lia. }
  pose proof E as E0. apply (f_equal (@List.length N)) in E0. rewrite app_length in E0. cbn [List.length] in E0.
  destruct b as [|n [|n2 b] ]; [discriminate| |cbn [List.length] in *; lia].
  inversion H as [|? ? Hn _]; subst. cbn [map List.concat List.length List.app] in *. rewrite app_nil_r in E, E0. rewrite app_length in E0. cbn [List.length] in E0.
  destruct (digits_ascii n Hn) as (_ & _ & A). rewrite A in E by lia. apply (f_equal (hd 0%N)) in E. cbn [hd List.app] in E. lia.
Qed.
