(* TMFacts.v -- facts about the token manager *)
From Verif Require Export TM SpecTM.

Lemma skipn_nth {A} (l : list A) p t r : skipn p l = t :: r -> nth_error l p = Some t /\ skipn (S p) l = r /\ p < length l.
Proof.
  revert p; induction l as [|a l IH]; intros [|p] H; cbn in *; try discriminate.
  - injection H as -> ->. repeat split. lia.
  - destruct (IH p H) as (H1 & H2 & H3). repeat split; auto. lia.
Qed.

Lemma last_token_some (tokens : list token) : tokens <> [] -> exists l, last_token tokens = Some l.
Proof. destruct tokens; [congruence|]. intros _. eexists; reflexivity. Qed.

Lemma last_token_nonnil (tokens : list token) l : last_token tokens = Some l -> tokens <> [].
Proof. destruct tokens; discriminate. Qed.

Section Views.
  Context {X : Type}.
  Implicit Types (toks : list token) (k : list nat) (x : X).

  Lemma peek_raw_at toks p k t r : skipn p toks = t :: r -> peek_raw (mkTms toks p k) = Ok t.
  Proof. intros H. unfold peek_raw. cbn. rewrite (proj1 (skipn_nth _ _ _ _ H)). reflexivity. Qed.

  Lemma peek_raw_end toks p k l : length toks <= p -> last_token toks = Some l -> peek_raw (mkTms toks p k) = Ok l.
  Proof. intros H Hl. unfold peek_raw. cbn. rewrite (proj2 (nth_error_None toks p) H), Hl. reflexivity. Qed.

  Lemma peek_at toks p k x t r ty v f : skipn p toks = t :: r ->
    peek_token ty v f (mkTms toks p k, x) = ((mkTms toks p k, x), check_token t ty v f).
  Proof. intros H. unfold peek_token. cbn [fst]. rewrite (peek_raw_at _ _ _ _ _ H). reflexivity. Qed.

  Lemma advance_at toks p k t r : skipn p toks = t :: r -> advance (mkTms toks p k) = mkTms toks (S p) k.
  Proof.
    intros H. unfold advance. cbn. destruct (Nat.leb_spec p (length toks)) as [_|E]; [reflexivity|].
    pose proof (proj2 (proj2 (skipn_nth _ _ _ _ H))). lia.
  Qed.

  Lemma current_at toks p k t r : skipn p toks = t :: r -> current_token (mkTms toks (S p) k) = Ok t.
  Proof.
    intros H. unfold current_token. cbn [tm_tokens tm_pos].
    destruct (last_token_some toks) as [l ->]; [intros ->; rewrite skipn_nil in H; discriminate|].
    rewrite (proj1 (skipn_nth _ _ _ _ H)). reflexivity.
  Qed.

  Lemma check_ok t ty v f u : check_token t ty v f = Ok u -> u = t.
  Proof.
    unfold check_token. repeat match goal with |- context [if ?b then _ else _] => destruct b end; congruence.
  Qed.

  Lemma check_exc t ty v f e : check_token t ty v f = Exc e -> e = ExTokenError.
  Proof.
    unfold check_token. repeat match goal with |- context [if ?b then _ else _] => destruct b end; congruence.
  Qed.

  Lemma get_at toks p k x t r ty v f : skipn p toks = t :: r ->
    get_token ty v f (mkTms toks p k, x) =
    match check_token t ty v f with
    | Ok _ => ((mkTms toks (S p) k, x), Ok t)
    | Exc e => ((mkTms toks p k, x), Exc e)
    end.
  Proof.
    intros H. unfold get_token, mbind. rewrite (peek_at _ _ _ _ _ _ _ _ _ H).
    destruct (check_token t ty v f) as [u|e]; [|reflexivity].
    cbn [fst snd]. rewrite (advance_at _ _ _ _ _ H), (current_at _ _ _ _ _ H). reflexivity.
  Qed.

  Lemma get_any toks p k x t r : skipn p toks = t :: r ->
    get_token None None None (mkTms toks p k, x) = ((mkTms toks (S p) k, x), Ok t).
  Proof. intros H. rewrite (get_at _ _ _ _ _ _ _ _ _ H). reflexivity. Qed.

  Lemma peek_any toks p k x t r : skipn p toks = t :: r ->
    peek_token None None None (mkTms toks p k, x) = ((mkTms toks p k, x), Ok t).
  Proof. intros H. rewrite (peek_at _ _ _ _ _ _ _ _ _ H). reflexivity. Qed.

  Lemma peek_is_at toks p k x t r ty v f : skipn p toks = t :: r ->
    peek_token_is ty v f (mkTms toks p k, x) =
    ((mkTms toks p k, x), Ok (match check_token t ty v f with Ok _ => true | Exc _ => false end)).
  Proof.
    intros H. unfold peek_token_is. rewrite (peek_at _ _ _ _ _ _ _ _ _ H).
    destruct (check_token t ty v f) as [u|e] eqn:E; [reflexivity|]. rewrite (check_exc _ _ _ _ _ E). reflexivity.
  Qed.

  (* Past the end of the list the last token is read again and again. *)
  Lemma get_end toks p k x l : length toks <= p -> last_token toks = Some l ->
    get_token None None None (mkTms toks p k, x) =
    ((mkTms toks (if p =? length toks then S p else p) k, x), Ok l).
  Proof.
    intros Hp Hl. unfold get_token, mbind, peek_token. cbn [fst snd]. rewrite (peek_raw_end _ _ _ _ Hp Hl).
    cbn [rbind check_token]. unfold advance. cbn [tm_pos tm_tokens].
    destruct (Nat.leb_spec p (length toks)) as [E|E].
    - assert (p = length toks) as -> by lia. rewrite Nat.eqb_refl. unfold set_pos, current_token. cbn [tm_tokens tm_pos tm_stack].
      rewrite Hl. rewrite (proj2 (nth_error_None toks (length toks)) (le_n _)). reflexivity.
    - destruct (Nat.eqb_spec p (length toks)); [lia|]. unfold current_token. cbn [tm_tokens tm_pos]. rewrite Hl.
      destruct p as [|p]; [reflexivity|]. rewrite (proj2 (nth_error_None toks p)) by lia. reflexivity.
  Qed.

  (* with self.tm, for a body that keeps the token list and the stack *)
  Lemma with_tm_ok {A} (body : M X A) toks p k x toks' p' x' a :
    body (mkTms toks p (p :: k), x) = ((mkTms toks' p' (p :: k), x'), Ok a) ->
    with_tm body (mkTms toks p k, x) = ((mkTms toks' p' k, x'), Ok (Some a)).
  Proof. intros H. unfold with_tm. cbn [fst snd set_stack tm_pos tm_stack tm_tokens]. unfold set_stack; cbn. rewrite H. reflexivity. Qed.

  Lemma with_tm_fail {A} (body : M X A) toks p k x toks' p' x' :
    body (mkTms toks p (p :: k), x) = ((mkTms toks' p' (p :: k), x'), Exc ExTokenError) ->
    with_tm body (mkTms toks p k, x) = ((mkTms toks' p k, x'), Ok None).
  Proof. intros H. unfold with_tm, set_stack; cbn. rewrite H. reflexivity. Qed.

  Lemma with_tm_exc {A} (body : M X A) toks p k x toks' p' x' e : e <> ExTokenError ->
    body (mkTms toks p (p :: k), x) = ((mkTms toks' p' (p :: k), x'), Exc e) ->
    with_tm body (mkTms toks p k, x) = ((mkTms toks' p k, x'), Exc e).
  Proof. intros He H. unfold with_tm, set_stack; cbn. rewrite H. cbn. destruct e; congruence || reflexivity. Qed.

  Lemma mbind_ok {A B} (m : M X A) (f : A -> M X B) s s' a : m s = (s', Ok a) -> mbind m f s = f a s'.
  Proof. intros H. unfold mbind. rewrite H. reflexivity. Qed.
  Lemma mbind_exc {A B} (m : M X A) (f : A -> M X B) s s' e : m s = (s', Exc e) -> mbind m f s = (s', Exc e).
  Proof. intros H. unfold mbind. rewrite H. reflexivity. Qed.
End Views.

(* ---------------------------------------------------------------- collect *)
Lemma token_in_spec t stops : token_in t (stops ++ [EOF_tok]) = true <-> stops_at stops t.
Proof.
  unfold token_in, stops_at. rewrite existsb_exists. split.
  - intros (u & Hin & Hu). apply token_eqb_spec in Hu as [H1 H2]. apply in_app_or in Hin as [Hin|[<-|[]]].
    + right. exists u. auto.
    + left. split; [exact H1|exact H2].
  - intros [[H1 H2]|(u & Hin & H1 & H2)].
    + exists EOF_tok. split; [apply in_or_app; right; left; reflexivity|]. apply token_eqb_spec. split; [exact H1|exact H2].
    + exists u. split; [apply in_or_app; left; exact Hin|]. apply token_eqb_spec. auto.
Qed.
Lemma token_in_false t stops : token_in t (stops ++ [EOF_tok]) = false <-> ~ stops_at stops t.
Proof. rewrite <- token_in_spec. destruct (token_in _ _); split; congruence. Qed.
Lemma escape_spec t : token_eqb t escape_tok = true <-> backslash t.
Proof. rewrite token_eqb_spec. reflexivity. Qed.
Lemma escape_false t : token_eqb t escape_tok = false <-> ~ backslash t.
Proof. rewrite <- escape_spec. destruct (token_eqb _ _); split; congruence. Qed.

Lemma skipn_split {A} (l : list A) p c r : skipn p l = c ++ r -> skipn (p + length c) l = r.
Proof.
  intros H. rewrite skipn_add, H, skipn_app, skipn_all, Nat.sub_diag. reflexivity.
Qed.

(* what comes after the collected tokens *)
Definition stop_next (stops : list token) (toks rest : list token) : Prop :=
  match rest with
  | u :: _ => stops_at stops u
  | [] => exists l, last_token toks = Some l /\ stops_at stops l
  end.

Lemma collect_loop_run {X} stops preserve c r : collected stops preserve c r ->
  forall fuel acc toks p k (x : X) rest, length c < fuel ->
  skipn p toks = c ++ rest -> p <= length toks -> stop_next stops toks rest ->
  collect_loop fuel (stops ++ [EOF_tok]) preserve acc (mkTms toks p k, x) =
  ((mkTms toks (p + length c) k, x), Ok (acc ++ r)).
Proof.
  induction 1 as [|t c r H1 H2 Hc IH|b u c r H1 H2 H3 Hc IH|b u c r H1 H2 H3 Hc IH]; intros fuel acc toks p k x rest Hf Hs Hp Hn.
  - destruct fuel as [|fuel]; [simpl in Hf; lia|]. cbn [app length collect_loop] in *.
    rewrite Nat.add_0_r, app_nil_r. destruct rest as [|u rest].
    + destruct Hn as (l & Hl & Hst). assert (Hlen : length toks <= p).
      { apply (f_equal (@length token)) in Hs. rewrite skipn_length in Hs. cbn in Hs. lia. }
      unfold mbind, peek_token. cbn [fst]. rewrite (peek_raw_end _ _ _ _ Hlen Hl). cbn [rbind check_token].
      rewrite (proj2 (token_in_spec l stops) Hst). reflexivity.
    + unfold mbind. rewrite (peek_any _ _ _ _ _ _ Hs). rewrite (proj2 (token_in_spec u stops) Hn). reflexivity.
  - destruct fuel as [|fuel]; [simpl in Hf; lia|]. cbn [app length collect_loop] in *.
    unfold mbind at 1. rewrite (peek_any _ _ _ _ _ _ Hs).
    rewrite (proj2 (token_in_false t stops) H1), (proj2 (escape_false t) H2).
    unfold mbind. rewrite (get_any _ _ _ _ _ _ Hs).
    destruct (skipn_nth _ _ _ _ Hs) as (_ & Hs' & Hlt).
    rewrite (IH fuel (acc ++ [t]) toks (S p) k x rest); [|lia|exact Hs'|lia|exact Hn].
    rewrite <- app_assoc. do 3 f_equal. lia.
  - destruct fuel as [|fuel]; [simpl in Hf; lia|]. cbn [app length collect_loop] in *.
    unfold mbind at 1. rewrite (peek_any _ _ _ _ _ _ Hs).
    rewrite (proj2 (token_in_false b stops) H1), (proj2 (escape_spec b) H2).
    unfold mbind. rewrite (get_any _ _ _ _ _ _ Hs).
    destruct (skipn_nth _ _ _ _ Hs) as (_ & Hs' & Hlt).
    rewrite (peek_any _ _ _ _ _ _ Hs'). rewrite (proj2 (token_in_false u stops) H3). cbn [negb orb].
    rewrite (get_any _ _ _ _ _ _ Hs'). destruct (skipn_nth _ _ _ _ Hs') as (_ & Hs'' & Hlt').
    rewrite (IH fuel ((acc ++ [b]) ++ [u]) toks (S (S p)) k x rest); [|lia|exact Hs''|lia|exact Hn].
    rewrite <- !app_assoc. do 3 f_equal. lia.
  - destruct fuel as [|fuel]; [simpl in Hf; lia|]. cbn [app length collect_loop] in *.
    unfold mbind at 1. rewrite (peek_any _ _ _ _ _ _ Hs).
    rewrite (proj2 (token_in_false b stops) H1), (proj2 (escape_spec b) H2).
    unfold mbind. rewrite (get_any _ _ _ _ _ _ Hs).
    destruct (skipn_nth _ _ _ _ Hs) as (_ & Hs' & Hlt).
    rewrite (peek_any _ _ _ _ _ _ Hs'). rewrite (proj2 (token_in_spec u stops) H3). cbn [negb orb].
    rewrite (get_any _ _ _ _ _ _ Hs'). destruct (skipn_nth _ _ _ _ Hs') as (_ & Hs'' & Hlt').
    rewrite (IH fuel ((if preserve then acc ++ [b] else acc) ++ [u]) toks (S (S p)) k x rest); [|lia|exact Hs''|lia|exact Hn].
    destruct preserve; rewrite <- !app_assoc; do 3 f_equal; lia.
Qed.

Lemma collected_le stops preserve c r : collected stops preserve c r -> length c <= length r * 2.
Proof. induction 1; cbn [length]; try lia. destruct preserve; cbn [app length]; lia. Qed.

Lemma collect_run {X} stops preserve c r toks p k (x : X) rest : collected stops preserve c r ->
  skipn p toks = c ++ rest -> p <= length toks -> stop_next stops toks rest ->
  collect stops preserve (mkTms toks p k, x) = ((mkTms toks (p + length c) k, x), Ok r).
Proof.
  intros Hc Hs Hp Hn. unfold collect. cbn [fst tm_tokens].
  rewrite (collect_loop_run stops preserve c r Hc _ [] toks p k x rest); auto.
  apply (f_equal (@length token)) in Hs. rewrite skipn_length, app_length in Hs. lia.
Qed.

(* every list that ends with EOF has a first unescaped stop token *)
Lemma stops_at_dec stops t : {stops_at stops t} + {~ stops_at stops t}.
Proof.
  destruct (token_in t (stops ++ [EOF_tok])) eqn:E; [left; apply token_in_spec, E|right; apply token_in_false, E].
Qed.
Lemma backslash_dec t : {backslash t} + {~ backslash t}.
Proof. destruct (token_eqb t escape_tok) eqn:E; [left; apply escape_spec, E|right; apply escape_false, E]. Qed.

Lemma collected_exists stops preserve : forall l, exists c r rest,
  l = c ++ rest /\ collected stops preserve c r /\
  match rest with
  | u :: _ => stops_at stops u \/ (backslash u /\ l = c ++ [u])
  | [] => True
  end.
Proof.
  intros l. remember (length l) as n eqn:Hn. assert (Hle : length l <= n) by lia. clear Hn.
  revert l Hle; induction n as [|n IH]; intros l Hle.
  - destruct l; [|simpl in Hle; lia]. exists [], [], []. repeat split; constructor.
  - destruct l as [|t l]; [exists [], [], []; repeat split; constructor|]. simpl in Hle.
    destruct (stops_at_dec stops t) as [H1|H1]; [exists [], [], (t :: l); repeat split; [constructor|left; exact H1]|].
    destruct (backslash_dec t) as [H2|H2].
    + destruct l as [|u l]; [exists [], [], [t]; repeat split; [constructor|right; auto]|]. simpl in Hle.
      destruct (IH l ltac:(lia)) as (c & r & rest & -> & Hc & Hr).
      assert (Hr' : match rest with u0 :: _ => stops_at stops u0 \/ (backslash u0 /\ t :: u :: c ++ rest = (t :: u :: c) ++ [u0]) | [] => True end).
      { destruct rest as [|v rest]; [exact I|]. destruct Hr as [Hr|[Hb Hr]]; [left; exact Hr|right; split; [exact Hb|cbn [app]; rewrite Hr; reflexivity]]. }
      destruct (stops_at_dec stops u) as [H3|H3].
      * eexists (t :: u :: c), _, rest. split; [reflexivity|]. split; [apply col_escaped; eauto|exact Hr'].
      * eexists (t :: u :: c), _, rest. split; [reflexivity|]. split; [apply col_pair; eauto|exact Hr'].
    + destruct (IH l ltac:(lia)) as (c & r & rest & -> & Hc & Hr).
      eexists (t :: c), _, rest. split; [reflexivity|]. split; [apply col_plain; eauto|].
      destruct rest as [|v rest]; [exact I|]. destruct Hr as [Hr|[Hb Hr]]; [left; exact Hr|right; split; [exact Hb|cbn [app]; rewrite Hr; reflexivity]].
Qed.

Lemma eof_not_backslash t : t_type t = T_EOF -> ~ backslash t.
Proof. intros H [H1 _]. congruence. Qed.
