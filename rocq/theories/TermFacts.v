(* TermFacts.v -- the loops of the parsers always end *)
From Verif Require Export TextParser.
From Verif Require Import LexerThms InlineInst ParseFacts.

Definition suffix (a b : list token) : Prop := exists p, b = p ++ a.
Lemma suffix_refl a : suffix a a.
Proof. exists []. reflexivity. Qed.
Lemma suffix_trans a b c : suffix a b -> suffix b c -> suffix a c.
Proof. intros [p ->] [q ->]. exists (q ++ p). apply app_assoc. Qed.
Lemma suffix_length a b : suffix a b -> length a <= length b.
Proof. intros [p ->]. rewrite app_length. lia. Qed.
Lemma suffix_next rem : suffix (next_rem rem) rem.
Proof. destruct rem as [|t [|u r]]; [apply suffix_refl|apply suffix_refl|]. exists [t]. reflexivity. Qed.

(* An invariant of the tokens that are left. *)
Definition closed (I : list token -> Prop) : Prop := forall a b, b <> [] -> suffix b a -> I a -> I b.
Definition notbad (e : exn) : Prop := e <> ExFuel.

(* f leaves some of the tokens, and never reaches a bound of the model. *)
Definition calm (I : list token -> Prop) {X A} (f : P X A) : Prop := forall rem x, rem <> [] -> I rem ->
  suffix (fst (fst (f (rem, x)))) rem /\ fst (fst (f (rem, x))) <> [] /\ snd (f (rem, x)) <> Exc ExFuel.
(* and reads at least one when it succeeds *)
Definition eats (I : list token -> Prop) {X A} (f : P X A) : Prop := forall rem x, rem <> [] -> I rem ->
  suffix (fst (fst (f (rem, x)))) rem /\ fst (fst (f (rem, x))) <> [] /\ snd (f (rem, x)) <> Exc ExFuel /\
  forall a, snd (f (rem, x)) = Ok a -> length (fst (fst (f (rem, x)))) < length rem.

Lemma eats_calm I {X A} (f : P X A) : eats I f -> calm I f.
Proof. intros H rem x Hr Hi. destruct (H rem x Hr Hi) as (A1 & A2 & A3 & _). auto. Qed.
Lemma calm_weak (I J : list token -> Prop) {X A} (f : P X A) : (forall r, J r -> I r) -> calm I f -> calm J f.
Proof. intros H K rem x Hr Hj. apply K; auto. Qed.
Lemma eats_weak (I J : list token -> Prop) {X A} (f : P X A) : (forall r, J r -> I r) -> eats I f -> eats J f.
Proof. intros H K rem x Hr Hj. apply K; auto. Qed.

Lemma calm_ret I {X A} (a : A) : calm I (@pret X A a).
Proof. intros rem x Hr _. split; [apply suffix_refl|]. split; [exact Hr|discriminate]. Qed.
Lemma calm_raise I {X A} e : e <> ExFuel -> calm I (@praise X A e).
Proof. intros H rem x Hr _. split; [apply suffix_refl|]. split; [exact Hr|]. cbn. congruence. Qed.
Lemma calm_lift I {X A} (r : res A) : r <> Exc ExFuel -> calm I (@plift X A r).
Proof. intros H rem x Hr _. split; [apply suffix_refl|]. split; [exact Hr|]. exact H. Qed.
Lemma calm_pget I {X} : calm I (@pget X).
Proof. intros rem x Hr _. split; [apply suffix_refl|]. split; [exact Hr|discriminate]. Qed.
Lemma calm_pmod I {X} (g : X -> X) : calm I (pmod g).
Proof. intros rem x Hr _. split; [apply suffix_refl|]. split; [exact Hr|discriminate]. Qed.
Lemma calm_peek I {X} ty v f : calm I (@ppeek X ty v f).
Proof.
  intros rem x Hr _. split; [apply suffix_refl|]. split; [exact Hr|]. cbn. destruct rem as [|t r]; [congruence|]. cbn.
  unfold check_token. destruct ty; [destruct (negb _); [discriminate|]|]; (destruct v; [destruct (negb _); [discriminate|]|]); (destruct f; [destruct (negb _); discriminate|discriminate]).
Qed.
Lemma check_nofuel t ty v f : check_token t ty v f <> Exc ExFuel.
Proof.
  unfold check_token. destruct ty; [destruct (negb _); [discriminate|]|]; (destruct v; [destruct (negb _); [discriminate|]|]); (destruct f; [destruct (negb _); discriminate|discriminate]).
Qed.
Lemma calm_peek_is I {X} ty v f : calm I (@peek_is X ty v f).
Proof.
  intros rem x Hr _. split; [apply suffix_refl|]. split; [exact Hr|]. cbn. destruct rem as [|t r]; [congruence|]. cbn.
  pose proof (check_nofuel t ty v f). destruct (check_token t ty v f) as [|[]]; try discriminate; congruence.
Qed.
Lemma next_ne rem : rem <> [] -> next_rem rem <> [].
Proof. destruct rem as [|t [|u r]]; [congruence|discriminate|discriminate]. Qed.
Lemma calm_get I {X} ty v f : calm I (@pget_token X ty v f).
Proof.
  intros rem x Hr _. unfold pget_token. cbn [fst snd]. destruct rem as [|t r]; [congruence|]. cbn [peek_tok].
  pose proof (check_nofuel t ty v f) as K. destruct (check_token t ty v f) as [u|e]; cbn [fst snd].
  - split; [apply suffix_next|]. split; [apply next_ne; discriminate|discriminate].
  - split; [apply suffix_refl|]. split; [discriminate|]. congruence.
Qed.

Lemma calm_bind I {X A B} (f : P X A) (g : A -> P X B) : closed I -> calm I f -> (forall a, calm I (g a)) -> calm I (pbind f g).
Proof.
  intros Hc Hf Hg rem x Hr Hi. destruct (Hf rem x Hr Hi) as (A1 & A2 & A3). unfold pbind.
  destruct (f (rem, x)) as [[rem' x'] [a|e]]; cbn [fst snd] in *; [|auto].
  2:{ split; [exact A1|]. split; [exact A2|]. congruence. }
  destruct (Hg a rem' x' A2 (Hc _ _ A2 A1 Hi)) as (B1 & B2 & B3). split; [eapply suffix_trans; eassumption|auto].
Qed.
(* after an f that reads, a bound can be smaller *)
Lemma eats_bind (I J : list token -> Prop) {X A B} (f : P X A) (g : A -> P X B) : closed I ->
  eats I f -> (forall a, calm J (g a)) ->
  (forall r r', I r -> I r' -> length r' < length r -> J r') -> eats I (pbind f g).
Proof.
  intros Hc Hf Hg Hj rem x Hr Hi. destruct (Hf rem x Hr Hi) as (A1 & A2 & A3 & A4). unfold pbind.
  destruct (f (rem, x)) as [[rem' x'] [a|e]]; cbn [fst snd] in *.
  2:{ split; [exact A1|]. split; [exact A2|]. split; [congruence|discriminate]. }
  specialize (A4 a eq_refl).
  assert (Hi' : I rem') by exact (Hc _ _ A2 A1 Hi).
  destruct (Hg a rem' x' A2 (Hj _ _ Hi Hi' A4)) as (B1 & B2 & B3). split; [eapply suffix_trans; eassumption|].
  split; [exact B2|]. split; [exact B3|]. intros b _. apply suffix_length in B1. lia.
Qed.
Lemma eats_bind' I {X A B} (f : P X A) (g : A -> P X B) : closed I -> eats I f -> (forall a, calm I (g a)) -> eats I (pbind f g).
Proof. intros Hc Hf Hg. apply (eats_bind I I); auto. Qed.
(* a test first, then a reading function *)
Lemma eats_after I {X A B} (f : P X A) (g : A -> P X B) : closed I -> calm I f -> (forall a, eats I (g a)) -> eats I (pbind f g).
Proof.
  intros Hc Hf Hg rem x Hr Hi. destruct (Hf rem x Hr Hi) as (A1 & A2 & A3). unfold pbind.
  destruct (f (rem, x)) as [[rem' x'] [a|e]]; cbn [fst snd] in *.
  2:{ split; [exact A1|]. split; [exact A2|]. split; [congruence|discriminate]. }
  destruct (Hg a rem' x' A2 (Hc _ _ A2 A1 Hi)) as (B1 & B2 & B3 & B4). split; [eapply suffix_trans; eassumption|].
  split; [exact B2|]. split; [exact B3|]. intros b Hb. specialize (B4 b Hb). apply suffix_length in A1. lia.
Qed.
Lemma eats_raise I {X A} e : e <> ExFuel -> eats I (@praise X A e).
Proof. intros H rem x Hr _. split; [apply suffix_refl|]. split; [exact Hr|]. cbn. split; [congruence|discriminate]. Qed.

Lemma calm_with I {X A} (f : P X A) : calm I f -> calm I (pwith f).
Proof.
  intros Hf rem x Hr Hi. destruct (Hf rem x Hr Hi) as (A1 & A2 & A3). unfold pwith.
  destruct (f (rem, x)) as [[rem' x'] [a|e]]; cbn [fst snd] in *; [split; [exact A1|split; [exact A2|discriminate]]|].
  destruct e; cbn [fst snd]; (split; [apply suffix_refl|split; [exact Hr|]]); try discriminate. congruence.
Qed.
Lemma calm_try I {X} (fns : list (P X bool)) : closed I -> Forall (calm I) fns -> calm I (ptry fns).
Proof.
  intros Hc. induction 1 as [|f fns Hf _ IH]; [apply calm_ret|]. cbn [ptry]. apply calm_bind; [exact Hc|apply calm_with, Hf|].
  intros [[|]|]; [apply calm_ret|exact IH|exact IH].
Qed.

(* tokens that end with an EOF token *)
Definition to_eof (rem : list token) : Prop := exists body c, rem = body ++ [mkToken T_EOF [] c].
Definition to_eof_type (rem : list token) : Prop := exists body t, rem = body ++ [t] /\ t_type t = T_EOF.
Lemma suffix_last {A} (p b body : list A) t : p ++ b = body ++ [t] -> b <> [] -> exists b', b = b' ++ [t].
Proof.
  intros E Hb. destruct (exists_last Hb) as (b' & u & ->). rewrite app_assoc in E. apply app_inj_tail in E as [_ ->]. eauto.
Qed.
Lemma closed_eof : closed to_eof.
Proof. intros a b Hb [p ->] (body & c & E). destruct (suffix_last _ _ _ _ E Hb) as (b' & ->). exists b', c. reflexivity. Qed.
Lemma closed_eof_type : closed to_eof_type.
Proof. intros a b Hb [p ->] (body & t & E & Ht). destruct (suffix_last _ _ _ _ E Hb) as (b' & ->). exists b', t. auto. Qed.
Lemma closed_and I J : closed I -> closed J -> closed (fun r => I r /\ J r).
Proof. intros H K a b Hb Hs [H1 H2]. split; [exact (H a b Hb Hs H1)|exact (K a b Hb Hs H2)]. Qed.
Lemma closed_len n : closed (fun r => length r < n).
Proof. intros a b Hb Hs H. apply suffix_length in Hs. lia. Qed.
Lemma closed_all (p : token -> Prop) : closed (Forall p).
Proof. intros a b Hb [q ->] H. apply Forall_app in H as [_ H]. exact H. Qed.
Lemma eof_weak r : to_eof r -> to_eof_type r.
Proof. intros (b & c & ->). exists b, (mkToken T_EOF [] c). auto. Qed.

Lemma next_eats t r : to_eof_type (t :: r) -> t_type t <> T_EOF -> next_rem (t :: r) = r /\ r <> [].
Proof.
  intros (b & u & E & Hu) Ht. destruct b as [|t' b]; injection E as -> E; [congruence|]. subst r. split.
  - destruct b; reflexivity.
  - destruct b; discriminate.
Qed.
Lemma eats_get (I : list token -> Prop) {X} ty v f : (forall r, I r -> to_eof_type r) -> ty <> T_EOF -> eats I (@pget_token X (Some ty) v f).
Proof.
  intros Hi Hty rem x Hr H. apply Hi in H. destruct rem as [|t r]; [congruence|]. unfold pget_token. cbn [fst snd peek_tok].
  pose proof (check_nofuel t (Some ty) v f) as K. destruct (check_token t (Some ty) v f) as [u|e] eqn:E; cbn [fst snd].
  - assert (Ht : t_type t = ty). { revert E. unfold check_token. destruct (tt_eqb_spec (t_type t) ty); [auto|discriminate]. }
    destruct (next_eats t r H) as [-> Hne]; [congruence|]. split; [exists [t]; reflexivity|]. split; [exact Hne|]. split; [discriminate|].
    intros _ _. cbn. lia.
  - split; [apply suffix_refl|]. split; [discriminate|]. split; [congruence|discriminate].
Qed.

(* collect *)
Lemma collect_calm stops p rem : to_eof rem -> token_in EOF_tok stops = true ->
  exists c rest, collect_list stops p rem = Ok (c, rest) /\ suffix rest rem /\ rest <> [] /\
    (forall t r, rem = t :: r -> token_in t stops = false -> length rest < length rem).
Proof.
  intros Hg He. remember (length rem) as n eqn:Hn. revert rem Hg Hn. induction n as [n IH] using lt_wf_ind. intros rem Hg ->.
  assert (Heof : forall c, token_in (mkToken T_EOF [] c) stops = true).
  { intros c. revert He. unfold token_in. rewrite !existsb_exists. intros (u & H1 & H2). exists u. split; [exact H1|]. exact H2. }
  destruct rem as [|t r]; [destruct Hg as ([|] & c & E); discriminate|]. cbn [collect_list]. destruct (token_in t stops) eqn:Et.
  { exists [], (t :: r). split; [reflexivity|]. split; [apply suffix_refl|]. split; [discriminate|]. intros t' r' E. injection E as <- <-. congruence. }
  assert (Hr : to_eof r).
  { destruct Hg as ([|t' b] & c & E); injection E as -> E; [rewrite Heof in Et; discriminate|]. exists b, c. exact E. }
  assert (Hrn : r <> []) by (destruct Hr as ([|] & ? & ->); discriminate).
  assert (Q : forall r', to_eof r' -> length r' < length (t :: r) -> suffix r' r -> exists c rest, collect_list stops p r' = Ok (c, rest) /\ suffix rest r' /\ rest <> []).
  { intros r' Hr' Hl Hs. destruct (IH (length r') Hl r' Hr' eq_refl) as (c & rest & E & S1 & S2 & _). eauto. }
  destruct (token_eqb t escape_tok).
  - destruct r as [|u [|w ws]]; [congruence| |].
    + do 2 eexists. split; [reflexivity|]. split; [exists [t]; reflexivity|]. split; [discriminate|]. intros; cbn; lia.
    + destruct (Q (w :: ws)) as (c & rest & E & S1 & S2).
      * apply (closed_eof (u :: w :: ws)); [discriminate|exists [u]; reflexivity|exact Hr].
      * cbn; lia.
      * exists [u]; reflexivity.
      * rewrite E. cbn [rbind]. do 2 eexists. split; [reflexivity|]. pose proof (suffix_length _ _ S1). split; [eapply suffix_trans; [exact S1|]; exists [t; u]; reflexivity|].
        split; [exact S2|]. intros; cbn in *; lia.
  - destruct (Q r) as (c & rest & E & S1 & S2); [exact Hr|cbn; lia|apply suffix_refl|]. rewrite E. cbn [rbind].
    do 2 eexists. split; [reflexivity|]. pose proof (suffix_length _ _ S1). split; [eapply suffix_trans; [exact S1|]; exists [t]; reflexivity|].
    split; [exact S2|]. intros; cbn in *; lia.
Qed.
Lemma token_in_app t a b : token_in t (a ++ b) = token_in t a || token_in t b.
Proof. apply existsb_app. Qed.
Lemma calm_collect (I : list token -> Prop) {X} stops j p : (forall r, I r -> to_eof r) -> calm I (@pcollect_join X stops j p).
Proof.
  intros Hi rem x Hr H. unfold pcollect_join, pcollect, pbind. cbn [fst snd].
  destruct (collect_calm (stops ++ [EOF_tok]) p rem (Hi _ H)) as (c & rest & E & S1 & S2 & _).
  { rewrite token_in_app. apply orb_true_r. }
  rewrite E. cbn. split; [exact S1|]. split; [exact S2|discriminate].
Qed.

(* --------------------------------------------------------- the loop *)
Lemma ploop_calm I {X} (fns : list (P X bool)) : closed I -> Forall (calm I) fns ->
  forall n last rem x, rem <> [] -> I rem ->
    2 * length rem + (match rem with t :: _ => if same_token t last then 0 else 1 | [] => 0 end) < n ->
    snd (ploop n fns last (rem, x)) <> Exc ExFuel.
Proof.
  intros Hc Hf. induction n as [|n IH]; intros last rem x Hr Hi Hn; [lia|]. cbn [ploop].
  destruct rem as [|t r]; [congruence|]. unfold pbind at 1, is_ty, peek_is. cbn [fst snd peek_tok]. unfold check_token.
  destruct (tt_eqb_spec (t_type t) T_EOF) as [E|E]; cbn [negb]; [discriminate|].
  unfold pbind at 1, ppeek. cbn [fst snd peek_tok check_token]. fold (same_token t last).
  destruct (same_token t last) eqn:Es; [discriminate|].
  destruct (calm_try I fns Hc Hf (t :: r) x Hr Hi) as (A1 & A2 & A3). unfold pbind.
  destruct (ptry fns (t :: r, x)) as [[rem' x'] [b|e]]; cbn [fst snd] in *; [|congruence].
  destruct b.
  - apply IH; [exact A2|exact (Hc _ _ A2 A1 Hi)|]. destruct A1 as [p E1]. destruct p as [|t' p].
    + cbn [app] in E1. subst rem'. assert (same_token t t = true) as ->.
      { unfold same_token. rewrite (proj2 (token_eqb_spec t t)) by auto. unfold context_eqb. rewrite !Nat.eqb_refl. cbn.
        destruct (c_source (t_ctx t)); [apply str_eqb_refl|reflexivity]. }
      lia.
    + rewrite E1 in Hn. cbn [app length] in Hn. rewrite app_length in Hn. destruct rem' as [|t2 r2]; [congruence|].
      destruct (same_token t2 t); lia.
  - unfold ppeek. cbn [fst snd]. destruct rem' as [|t2 r2]; [congruence|]. discriminate.
Qed.
Lemma prun_calm I {X} toks (x : X) fns : closed I -> Forall (calm I) fns -> toks <> [] -> I toks -> prun (Ok toks) x fns <> Exc ExFuel.
Proof.
  intros Hc Hf Hn Hi. unfold prun, pparse. cbn [rbind fst].
  pose proof (ploop_calm I fns Hc Hf (S (S (2 * length toks))) start_token toks x Hn Hi) as K.
  destruct (ploop _ fns start_token (toks, x)) as [[r y] [u|e]]; cbn [snd] in *; [discriminate|].
  intros E. apply K; [|congruence]. destruct toks as [|t r']; [congruence|]. destruct (same_token t start_token); lia.
Qed.

(* a TokenError never leaves a parser *)
Lemma ptry_no_token {X} (fns : list (P X bool)) s : snd (ptry fns s) <> Exc ExTokenError.
Proof.
  revert s; induction fns as [|f fns IH]; intros s; [discriminate|]. cbn [ptry]. unfold pbind, pwith.
  destruct (f s) as [s' [b|e]]; [destruct b; [discriminate|apply IH]|]. destruct e; [apply IH|discriminate|discriminate|discriminate].
Qed.
Lemma ploop_no_token {X} n (fns : list (P X bool)) : forall last s, snd (ploop n fns last s) <> Exc ExTokenError.
Proof.
  induction n as [|n IH]; intros last [rem x]; [discriminate|]. cbn [ploop]. unfold pbind at 1, is_ty, peek_is. cbn [fst snd].
  destruct rem as [|t r]; [discriminate|]. cbn [peek_tok]. unfold check_token.
  destruct (tt_eqb (t_type t) T_EOF); cbn [negb]; [discriminate|]. unfold pbind at 1, ppeek. cbn [fst snd peek_tok check_token].
  destruct (token_eqb t last && _); [discriminate|]. unfold pbind. pose proof (ptry_no_token fns (t :: r, x)) as K.
  destruct (ptry fns (t :: r, x)) as [s' [b|e]]; cbn [fst snd] in *; [|congruence]. destruct b; [apply IH|].
  unfold ppeek. destruct (fst s'); discriminate.
Qed.
Lemma prun_no_token {X} lexed (x : X) fns : lexed <> Exc ExTokenError -> prun lexed x fns <> Exc ExTokenError.
Proof.
  intros H. unfold prun, pparse. destruct lexed as [toks|e]; [|exact (fun E => H (f_equal _ (f_equal (fun r => match r with Ok _ => e | Exc e => e end) E)))].
  cbn [rbind fst]. pose proof (ploop_no_token (S (S (2 * length toks))) fns start_token (toks, x)) as K.
  destruct (ploop _ fns start_token (toks, x)) as [[r y] [u|e]]; cbn [snd] in *; [discriminate|]. congruence.
Qed.
