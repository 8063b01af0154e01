(* Cutting a line into words: every character belongs to a word, and the words
   are spelled as their kinds are. *)
From Verif Require Import P_CStr P_Const S_Policy.
From Verif Require Import M_PyParse S_PyText.
Local Open Scope string_scope.

(* ---- Characters ---- *)
Ltac by_cases_char c := destruct c as [[] [] [] [] [] [] [] []].
Lemma in_range_spec lo hi c : in_range lo hi c = true <-> (N_of_ascii lo <= N_of_ascii c <= N_of_ascii hi)%N.
Proof. unfold in_range. rewrite andb_true_iff, !N.leb_le. reflexivity. Qed.
Lemma is_c_spec x c : is_c x c = true <-> c = x.
Proof. unfold is_c. rewrite Ascii.eqb_eq. split; congruence. Qed.
Lemma digit_char c v : digit c v -> (v < 10)%N -> N_of_ascii c = (48 + v)%N.
Proof.
  intros [E|E] L; (assert (exists n, v = N.of_nat n /\ (n < 10)%nat) as (n & -> & L') by (exists (N.to_nat v); lia));
  rewrite Nnat.Nat2N.id in E; do 10 (destruct n as [|n]; [injection E as <-; reflexivity|]); lia.
Qed.
Lemma is_digit_spec c : is_digit c = true <-> dec_digit c.
Proof.
  unfold is_digit. rewrite in_range_spec. split.
  - intros H. exists (N_of_ascii c - 48)%N. by_cases_char c; vm_compute in H; try (exfalso; destruct H; congruence);
      (split; [left; reflexivity|reflexivity]).
  - intros (v & D & L). pose proof (digit_char _ _ D L). cbn. lia.
Qed.
Lemma is_octal_spec c : is_octal c = true <-> oct_digit c.
Proof.
  unfold is_octal. rewrite in_range_spec. split.
  - intros H. exists (N_of_ascii c - 48)%N. by_cases_char c; vm_compute in H; try (exfalso; destruct H; congruence);
      (split; [left; reflexivity|reflexivity]).
  - intros (v & D & L). assert (v < 10)%N as L' by lia. pose proof (digit_char _ _ D L'). cbn. lia.
Qed.
Lemma is_hex_spec c : is_hex c = true <-> hex_digit c.
Proof.
  unfold is_hex, is_digit. split.
  - intros H. exists (digit_value c).
    by_cases_char c; vm_compute in H; try discriminate; (split; [first [left; reflexivity|right; reflexivity]|reflexivity]).
  - intros (v & [E|E] & L); (assert (exists n, v = N.of_nat n /\ (n < 16)%nat) as (n & -> & L') by (exists (N.to_nat v); lia));
    rewrite Nnat.Nat2N.id in E; do 16 (destruct n as [|n]; [injection E as <-; reflexivity|]); lia.
Qed.
Lemma is_letter_spec c : is_letter c = true <-> letter c.
Proof. unfold is_letter, letter. rewrite orb_true_iff, !in_range_spec. reflexivity. Qed.
Lemma is_word_spec c : is_word c = true <-> word_char c.
Proof. unfold is_word, word_char. rewrite !orb_true_iff, is_letter_spec, is_digit_spec, is_c_spec. tauto. Qed.
Lemma is_space_spec c : is_space c = true <-> white c.
Proof. unfold is_space, white. rewrite orb_true_iff, !in_range_spec. reflexivity. Qed.

(* ---- What a match is ---- *)
Fixpoint every (p : ascii -> bool) (s : string) : bool :=
  match s with EmptyString => true | String c t => p c && every p t end.
Fixpoint last_of (prev : option ascii) (u : string) : option ascii :=
  match u with EmptyString => prev | String c t => last_of (Some c) t end.
(* [r] matches [u] when [prev] is before and [mid] follows *)
Fixpoint den (r : re) (prev : option ascii) (u mid : string) : Prop :=
  match r with
  | Chr p => exists c, u = String c "" /\ p c = true
  | Eps => u = ""
  | Cat a b => exists v w, u = v ++ w /\ den a prev v (w ++ mid) /\ den b (last_of prev v) w mid
  | Alt a b => den a prev u mid \/ den b prev u mid
  | Many p => every p u = true
  | Bound => u = "" /\ xorb (word_at prev) (word_at (head mid)) = true
  | Eol => u = "" /\ (mid = "" \/ mid = String "010" "")
  end.
Lemma den_cat a b prev u mid : den (Cat a b) prev u mid ->
  exists v w, u = v ++ w /\ den a prev v (w ++ mid) /\ den b (last_of prev v) w mid.
Proof. exact (fun H => H). Qed.
Lemma last_of_app prev u v : last_of prev (u ++ v) = last_of (last_of prev u) v.
Proof. revert prev. induction u as [|c u IH]; intros prev; [reflexivity|]. cbn. apply IH. Qed.
Lemma many_sound {T} p (k : option ascii -> string -> option T) x : forall s prev, many p prev s k = Some x ->
  exists u mid, s = u ++ mid /\ every p u = true /\ k (last_of prev u) mid = Some x.
Proof.
  induction s as [|c s IH]; intros prev H; cbn in H.
  - exists "", "". auto.
  - destruct (p c) eqn:P; [|exists "", (String c s); auto].
    destruct (many p (Some c) s k) eqn:M.
    + injection H as <-. destruct (IH _ M) as (u & mid & -> & E & K). exists (String c u), mid. cbn. rewrite P. auto.
    + exists "", (String c s). auto.
Qed.
Lemma matching_sound {T} r : forall prev s (k : option ascii -> string -> option T) x, matching r prev s k = Some x ->
  exists u mid, s = u ++ mid /\ den r prev u mid /\ k (last_of prev u) mid = Some x.
Proof.
  induction r as [p| |a IHa b IHb|a IHa b IHb|p| |]; intros prev s k x H; cbn in H.
  - destruct s as [|c s]; [discriminate|]. destruct (p c) eqn:P; [|discriminate].
    exists (String c ""), s. cbn. eauto.
  - exists "", s. cbn. auto.
  - destruct (IHa _ _ _ _ H) as (u & mid & -> & D & K). cbv beta in K.
    destruct (IHb _ _ _ _ K) as (v & mid' & -> & D' & K'). exists (u ++ v), mid'.
    rewrite sapp_assoc, last_of_app. cbn. eauto 8.
  - destruct (matching a prev s k) eqn:M.
    + injection H as <-. destruct (IHa _ _ _ _ M) as (u & mid & -> & D & K). exists u, mid. cbn. auto.
    + destruct (IHb _ _ _ _ H) as (u & mid & -> & D & K). exists u, mid. cbn. auto.
  - destruct (many_sound _ _ _ _ _ H) as (u & mid & -> & E & K). exists u, mid. cbn. auto.
  - destruct (xorb _ _) eqn:X; [|discriminate]. exists "", s. cbn. auto.
  - exists "", s. cbn. destruct s as [|c s]; [auto|].
    assert (c = "010"%char /\ s = "" /\ k prev (String c s) = Some x) as (-> & -> & K); [|auto].
    by_cases_char c; try discriminate H; destruct s; try discriminate H; auto.
Qed.
Lemma re_match_sound r prev s rest : re_match r prev s = Some rest ->
  exists u, s = u ++ rest /\ den r prev u rest.
Proof.
  intros H. destruct (matching_sound _ _ _ _ _ H) as (u & mid & -> & D & K). injection K as <-. eauto.
Qed.
Lemma den_lit s : forall prev u mid, den (lit s) prev u mid <-> u = s.
Proof.
  induction s as [|c s IH]; intros prev u mid; cbn; [tauto|]. split.
  - intros (v & w & -> & (x & -> & P) & D). apply IH in D as ->. apply is_c_spec in P as ->. reflexivity.
  - intros ->. exists (String c ""), s. split; [reflexivity|]. split; [exists c; split; [reflexivity|apply is_c_spec; reflexivity]|].
    apply IH. reflexivity.
Qed.
Lemma den_word_lit s prev u mid : den (word_lit s) prev u mid -> u = s.
Proof.
  cbn. intros (v & w & -> & (-> & _) & (v' & w' & -> & D & (-> & _))). apply den_lit in D as ->. cbn. apply sapp_nil_r.
Qed.
Lemma every_all p s : every p s = true <-> all_chars (fun c => p c = true) s.
Proof.
  induction s as [|c s IH]; cbn; [split; [intros _; apply all_chars_nil|reflexivity]|].
  rewrite all_chars_cons, andb_true_iff, IH. reflexivity.
Qed.
Lemma den_some1 p prev u mid : den (some1 p) prev u mid <-> u <> "" /\ all_chars (fun c => p c = true) u.
Proof.
  cbn. split.
  - intros (v & w & -> & (c & -> & P) & E). split; [discriminate|]. cbn. rewrite all_chars_cons, <- every_all. auto.
  - intros [N A]. destruct u as [|c u]; [contradiction|]. apply all_chars_cons in A as [P A].
    exists (String c ""), u. split; [reflexivity|]. split; [eauto|]. apply every_all. assumption.
Qed.
Lemma den_maybe r prev u mid : den (maybe r) prev u mid <-> den r prev u mid \/ u = "".
Proof. reflexivity. Qed.

(* ---- Numbers ---- *)
Lemma digits_exist base s : s <> "" -> all_chars (fun c => exists v, digit c v /\ (v < base)%N) s -> exists n, digits_val base s n.
Proof.
  induction s as [|s c IH] using string_rev_ind; [congruence|]. intros _ A.
  apply all_chars_app in A as [A B]. apply all_chars_cons in B as [(v & D & L) _].
  destruct s as [|x s].
  - exists v. apply dv_one; assumption.
  - destruct IH as [n N]; [discriminate|assumption|]. eexists. apply dv_snoc; eassumption.
Qed.
Lemma den_minus prev u mid : den (maybe (Chr (is_c "-"))) prev u mid -> u = "" \/ u = "-".
Proof. rewrite den_maybe. cbn [den]. intros [(c & -> & P)| ->]; [apply is_c_spec in P as ->|]; auto. Qed.
Lemma hex_number prev u mid : den HEX_REGEX prev u mid -> exists z, number u z.
Proof.
  unfold HEX_REGEX. cbn [den]. intros (v & w & -> & M & (v' & w' & -> & (c & -> & P) & (v'' & w'' & -> & (x & -> & Q) & D))).
  apply den_minus in M. apply is_c_spec in P as ->. apply den_some1 in D as [N A].
  destruct (digits_exist 16 w'' N) as [n V].
  { eapply all_chars_impl; [|exact A]. intros y Y. apply is_hex_spec. exact Y. }
  assert (magnitude (String "0" "" ++ String x "" ++ w'') n) as G.
  { apply orb_true_iff in Q as [Q|Q]; apply is_c_spec in Q as ->; [apply (mag_hex w'')|apply (mag_Hex w'')]; assumption. }
  destruct M as [->| ->]; eexists; [apply num_c|apply num_minus_c]; exact G.
Qed.
Lemma octal_number prev u mid : den OCTAL_REGEX prev u mid -> exists z, number u z.
Proof.
  unfold OCTAL_REGEX. cbn [den]. intros (v & w & -> & M & (v' & w' & -> & (c & -> & P) & D)).
  apply den_minus in M. apply is_c_spec in P as ->. apply den_some1 in D as [N A].
  destruct (digits_exist 8 (String "0" w')) as [n V]; [discriminate| |].
  { apply all_chars_cons. split; [exists 0%N; split; [left; reflexivity|reflexivity]|].
    eapply all_chars_impl; [|exact A]. intros y Y. apply is_octal_spec. exact Y. }
  apply mag_oct in V. destruct M as [->| ->]; eexists; [apply num_c|apply num_minus_c]; exact V.
Qed.
Lemma dec_octal c : dec_digit c -> oct_digit c \/ c = "8"%char \/ c = "9"%char.
Proof.
  intros H. apply is_digit_spec in H. rewrite <- is_octal_spec.
  by_cases_char c; vm_compute in H; try discriminate H; auto.
Qed.
Definition leading_zero (u : string) : Prop := exists c t, u = String "0" (String c t).
(* A decimal number without minus, that is not octal. *)
Lemma decimal_number u : u <> "" -> all_chars dec_digit u ->
  (forall c t, u = String "0" (String c t) -> ~ oct_digit c) -> exists n, number u (Z.of_N n) /\ number ("-" ++ u) (- Z.of_N n).
Proof.
  intros N A O. destruct (digits_exist 10 u N A) as [n V].
  destruct u as [|d u]; [congruence|]. destruct (ascii_dec d "0") as [->|Z].
  - destruct u as [|c u].
    + exists 0%N. assert (magnitude "0" 0) by (apply (mag_oct ""), (dv_one 8 "0" 0); [left; reflexivity|reflexivity]).
      split; [apply num_c|apply num_minus_c]; assumption.
    + assert (c = "8"%char \/ c = "9"%char) as Hc.
      { apply all_chars_cons in A as [_ A]. apply all_chars_cons in A as [B _].
        destruct (dec_octal _ B) as [X|X]; [exfalso; eapply O; eauto|exact X]. }
      exists n. split; [apply num_odd|apply num_minus_odd]; assumption.
  - exists n. assert (magnitude (String d u) n) by (apply mag_dec; [intros t E; injection E; congruence|assumption]).
    split; [apply num_c|apply num_minus_c]; assumption.
Qed.
Lemma octal_found prev c t : is_octal c = true -> re_match OCTAL_REGEX prev (String "0" (String c t)) <> None.
Proof.
  intros O. unfold re_match. cbn. rewrite O.
  assert (forall p s prev, many p prev s (fun _ s => Some s) <> None) as G.
  { clear. intros p s. induction s as [|c s IH]; intros prev; cbn; [discriminate|].
    destruct (p c); [|discriminate]. destruct (many p (Some c) s (fun _ s => Some s)); discriminate. }
  apply G.
Qed.
Lemma octal_found_minus prev c t : is_octal c = true -> re_match OCTAL_REGEX prev (String "-" (String "0" (String c t))) <> None.
Proof.
  intros O. pose proof (octal_found (Some "-"%char) c t O) as G. revert G. unfold re_match, OCTAL_REGEX, maybe.
  cbn [matching]. change (is_c "-" "-") with true. cbn [matching]. cbv iota.
  change (is_c "-" "0") with false. cbv iota. intros G. destruct (is_c "0" "0"); [|congruence].
  destruct (matching (some1 is_octal) (Some "0"%char) (String c t) (fun _ s => Some s)); [discriminate|congruence].
Qed.
(* ---- Completeness of matching ---- *)
Lemma many_complete {T} p (k : option ascii -> string -> option T) : forall u prev mid, every p u = true -> k (last_of prev u) mid <> None -> many p prev (u ++ mid) k <> None.
Proof.
  induction u as [|c u IH]; intros prev mid E K; cbn in *.
  - destruct mid as [|c t]; cbn; [exact K|]. destruct (p c); [|exact K]. destruct (many p (Some c) t k); [discriminate|exact K].
  - apply andb_true_iff in E as [P E]. rewrite P. specialize (IH (Some c) mid E K).
    destruct (many p (Some c) (u ++ mid) k); [discriminate|congruence].
Qed.
Lemma matching_complete {T} r : forall prev u mid (k : option ascii -> string -> option T), den r prev u mid -> k (last_of prev u) mid <> None -> matching r prev (u ++ mid) k <> None.
Proof.
  induction r as [p| |a IHa b IHb|a IHa b IHb|p| |]; intros prev u mid k D K; cbn in D.
  - destruct D as (c & -> & P). cbn in *. rewrite P. exact K.
  - subst u. exact K.
  - destruct D as (v & w & -> & D & D'). rewrite last_of_app in K. rewrite sapp_assoc. cbn [matching].
    apply IHa; [exact D|]. cbv beta. apply IHb; assumption.
  - cbn [matching]. destruct D as [D|D].
    + specialize (IHa _ _ _ k D K). destruct (matching a prev (u ++ mid) k); [discriminate|congruence].
    + specialize (IHb _ _ _ k D K). destruct (matching a prev (u ++ mid) k); [discriminate|exact IHb].
  - apply many_complete; assumption.
  - destruct D as [-> X]. cbn in *. rewrite X. exact K.
  - destruct D as [-> [->| ->]]; cbn in *; exact K.
Qed.
Lemma re_match_complete r prev u mid : den r prev u mid -> re_match r prev (u ++ mid) <> None.
Proof. intros D. apply matching_complete; [exact D|discriminate]. Qed.
Lemma many_greedy p : forall s prev rest, many p prev s (fun _ s => Some s) = Some rest ->
  exists u, s = u ++ rest /\ every p u = true /\ forall c t, rest = String c t -> p c = false.
Proof.
  induction s as [|c s IH]; intros prev rest H; cbn in H.
  - injection H as <-. exists "". repeat split. discriminate.
  - destruct (p c) eqn:P.
    + destruct (many p (Some c) s (fun _ s => Some s)) eqn:M.
      * injection H as <-. destruct (IH _ _ M) as (u & -> & E & F). exists (String c u). cbn. rewrite P. auto.
      * exfalso. assert (many p (Some c) s (fun _ s => Some s) <> None) as X by (apply (many_complete p _ ""); [reflexivity|discriminate]). contradiction.
    + injection H as <-. exists "". repeat split. intros x t E. injection E as <- <-. exact P.
Qed.
(* A run that is followed by another character is the longest. *)
Lemma longest_run (P : ascii -> Prop) v rest v' rest' : v ++ rest = v' ++ rest' ->
  (forall c t, rest = String c t -> ~ P c) -> all_chars P v' -> (String.length v' <= String.length v)%nat.
Proof.
  revert v'. induction v as [|c v IH]; intros v' E F A.
  - destruct v' as [|x v']; [cbn; lia|]. exfalso. cbn in E. apply all_chars_cons in A as [A _]. exact (F _ _ E A).
  - destruct v' as [|x v']; [cbn; lia|]. injection E as <- E. apply all_chars_cons in A as [_ A].
    specialize (IH _ E F A). cbn. lia.
Qed.
Lemma alts_first l : forall prev s rest, l <> [] -> re_match (alts l) prev s = Some rest ->
  exists a r b, l = (a ++ r :: b)%list /\ re_match r prev s = Some rest /\ Forall (fun r => re_match r prev s = None) a.
Proof.
  induction l as [|r l IH]; intros prev s rest N H; [congruence|].
  destruct l as [|r' l]; [exists [], r, []; auto|].
  unfold re_match in H. cbn [alts matching] in H. destruct (matching r prev s (fun _ s => Some s)) eqn:M.
  - exists [], r, (r' :: l). injection H as ->. auto.
  - destruct (IH prev s rest ltac:(discriminate) H) as (x & y & z & -> & E & F). exists (r :: x), y, z. repeat split; auto.
Qed.

(* ---- Edges ---- *)
Lemma last_of_snoc prev t c : last_of prev (t ++ String c "") = Some c.
Proof. rewrite last_of_app. reflexivity. Qed.
Lemma word_before_spec before : word_before before <-> word_at (last_of None before) = true.
Proof.
  split.
  - intros (t & c & -> & W). rewrite last_of_snoc. apply is_word_spec. exact W.
  - destruct before as [|t c _] using string_rev_ind; [discriminate|]. rewrite last_of_snoc. intros W.
    exists t, c. split; [reflexivity|]. apply is_word_spec. exact W.
Qed.
Lemma word_after_spec rest : word_after rest <-> word_at (head rest) = true.
Proof.
  split.
  - intros (c & t & -> & W). apply is_word_spec. exact W.
  - destruct rest as [|c t]; [discriminate|]. intros W. exists c, t. split; [reflexivity|]. apply is_word_spec. exact W.
Qed.
Lemma bound_before before u rest : word_at (head u) = true ->
  xorb (word_at (last_of None before)) (word_at (head (u ++ rest))) = true <-> ~ word_before before.
Proof.
  intros H. assert (word_at (head (u ++ rest)) = true) as -> by (destruct u; [discriminate|exact H]).
  rewrite word_before_spec. destruct (word_at (last_of None before)); cbn; split; congruence.
Qed.
Lemma bound_after prev rest : word_at prev = true -> xorb (word_at prev) (word_at (head rest)) = true <-> ~ word_after rest.
Proof. intros H. rewrite H, word_after_spec. destruct (word_at (head rest)); cbn; split; congruence. Qed.
Lemma last_word u prev : u <> "" -> all_chars (fun c => is_word c = true) u -> word_at (last_of prev u) = true.
Proof.
  intros N A. destruct u as [|t c _] using string_rev_ind; [congruence|]. rewrite last_of_snoc.
  apply all_chars_app in A as [_ A]. apply all_chars_cons in A as [A _]. exact A.
Qed.
(* ---- Kinds ---- *)
Lemma den_lit_bound s before u rest : word_at (last_of None s) = true ->
  den (Cat (lit s) Bound) (last_of None before) u rest <-> u = s /\ ~ word_after rest.
Proof.
  intros W. assert (forall p, s <> "" -> last_of p s = last_of None s) as L.
  { intros p. destruct s; [congruence|reflexivity]. }
  assert (s <> "") as N by (intros ->; discriminate W).
  split.
  - intros D. apply den_cat in D as (v & w & -> & D & (-> & X)). apply den_lit in D as ->. rewrite sapp_nil_r.
    split; [reflexivity|]. rewrite L in X by exact N. apply bound_after in X; assumption.
  - intros [-> A]. exists s, "". rewrite sapp_nil_r. split; [reflexivity|]. split; [apply den_lit; reflexivity|].
    split; [reflexivity|]. rewrite L by exact N. apply bound_after; assumption.
Qed.
Lemma den_word s before u rest : word_at (head s) = true -> word_at (last_of None s) = true ->
  den (word_lit s) (last_of None before) u rest <-> u = s /\ ~ word_before before /\ ~ word_after rest.
Proof.
  intros H W. split.
  - intros D. apply den_cat in D as (v & w & -> & (-> & X) & D).
    change (last_of (last_of None before) "") with (last_of None before) in D.
    apply (den_lit_bound s before) in D as [-> A]; [|exact W]. split; [reflexivity|]. split; [|exact A].
    apply bound_before in X; [exact X|exact H].
  - intros (-> & B & A). exists "", s. split; [reflexivity|]. split; [split; [reflexivity|]|].
    + apply bound_before; assumption.
    + apply (den_lit_bound s before); auto.
Qed.
Lemma den_alts l prev u mid : l <> [] -> (den (alts l) prev u mid <-> exists r, In r l /\ den r prev u mid).
Proof.
  intros N. split.
  - clear N. revert prev u mid. induction l as [|r l IH]; intros prev u mid H.
    + cbn in H. destruct H as (c & _ & E). discriminate.
    + destruct l as [|r' l]; [exists r; split; [left; reflexivity|exact H]|].
      destruct H as [H|H]; [exists r; split; [left; reflexivity|exact H]|].
      destruct (IH _ _ _ H) as (x & I & D). exists x. split; [right; exact I|exact D].
  - induction l as [|r l IH]; [congruence|]. intros (x & I & D). destruct l as [|r' l].
    + destruct I as [->|[]]. exact D.
    + destruct I as [->|I]; [left; exact D|right]. apply IH; [discriminate|eauto].
Qed.
Lemma in_line_eol s : in_line s -> (s = "" \/ s = String "010" "") <-> s = "".
Proof.
  intros IL. split; [|auto]. intros [->| ->]; [reflexivity|]. apply all_chars_cons in IL as [[N _] _]. exfalso. apply N. reflexivity.
Qed.
Lemma in_line_app a b : in_line (a ++ b) -> in_line b.
Proof. intros H. apply all_chars_app in H as [_ H]. exact H. Qed.
Lemma den_eol r prev u mid : in_line mid -> den (Cat r Eol) prev u mid <-> den r prev u "" /\ mid = "".
Proof.
  intros IL. split.
  - intros D. apply den_cat in D as (v & w & -> & D & (-> & F)). apply in_line_eol in F as ->; [|exact IL].
    rewrite sapp_nil_r. cbn in D. auto.
  - intros [D ->]. exists u, "". rewrite sapp_nil_r. repeat split; auto.
Qed.
Lemma den_chr p prev u mid : den (Chr p) prev u mid <-> exists c, u = String c "" /\ p c = true.
Proof. reflexivity. Qed.
Lemma den_cons p r prev u mid : den (Cat (Chr p) r) prev u mid <-> exists c t, u = String c t /\ p c = true /\ den r (Some c) t mid.
Proof.
  split.
  - intros D. apply den_cat in D as (v & w & -> & (c & -> & P) & D). exists c, w. auto.
  - intros (c & t & -> & P & D). exists (String c ""), t. split; [reflexivity|]. split; [exists c; auto|exact D].
Qed.
Lemma all_true (p : ascii -> bool) (P : ascii -> Prop) s : (forall c, p c = true <-> P c) ->
  all_chars (fun c => p c = true) s <-> all_chars P s.
Proof. intros H. split; intros A; (eapply all_chars_impl; [|exact A]); intros c C; apply H; exact C. Qed.
Lemma den_some1_of p P prev u mid : (forall c, p c = true <-> P c) -> den (some1 p) prev u mid <-> one_of P u.
Proof. intros H. rewrite den_some1, (all_true p P u H). reflexivity. Qed.
Lemma op_den before u rest :
  den (alts [lit "&"; word_lit "in"; lit "=="; lit "!="; lit "<="; lit "<"; lit ">="; lit ">"]) (last_of None before) u rest <->
  (exists o, op_name u o) /\ (u = "in" -> ~ word_before before /\ ~ word_after rest).
Proof.
  rewrite den_alts by discriminate. split.
  - intros (r & I & D). repeat (destruct I as [<-|I]); [..|destruct I];
      try (apply den_lit in D as ->; split; [|discriminate]).
    2: { apply den_word in D as (-> & E); [|reflexivity..]. split; [exists IN; reflexivity|auto]. }
    + exists SET; reflexivity.
    + exists EQ; reflexivity.
    + exists NE; reflexivity.
    + exists LE; reflexivity.
    + exists LT; reflexivity.
    + exists GE; reflexivity.
    + exists GT; reflexivity.
  - intros ((o & O) & B). destruct o; cbn in O; subst u.
    all: try (eexists; split; [|apply den_lit; reflexivity]; cbn; tauto).
    exists (word_lit "in"). split; [cbn; tauto|]. apply den_word; [reflexivity..|]. auto.
Qed.
Lemma action_den before u rest :
  den (alts [word_lit "allow"; word_lit "kill-process"; word_lit "kill-thread"; word_lit "kill"; word_lit "trap";
                  word_lit "trace"; word_lit "log"; word_lit "user-notify"]) (last_of None before) u rest <->
  In u actions_named /\ ~ word_before before /\ ~ word_after rest.
Proof.
  rewrite den_alts by discriminate. split.
  - intros (r & I & D). repeat (destruct I as [<-|I]); [..|destruct I];
      (apply den_word in D as (-> & E); [|reflexivity..]; split; [cbn; tauto|exact E]).
  - intros (I & E). repeat (destruct I as [<-|I]); [..|destruct I];
    match goal with |- context [den _ _ ?x _] => exists (word_lit x) end;
    (split; [cbn; tauto|apply den_word; [reflexivity..|]; split; [reflexivity|exact E]]).
Qed.
Lemma arg_den before u rest :
  den (Cat Bound (Cat (lit "arg") (Cat (some1 is_digit) Bound))) (last_of None before) u rest <->
  (exists ds, u = "arg" ++ ds /\ one_of dec_digit ds) /\ ~ word_before before /\ ~ word_after rest.
Proof.
  split.
  - intros D. apply den_cat in D as (v & w & -> & (-> & X) & D).
    change (last_of (last_of None before) "") with (last_of None before) in D.
    apply den_cat in D as (v & w' & -> & D & D'). apply (den_lit "arg") in D as ->.
    apply den_cat in D' as (ds & w'' & -> & D & (-> & Y)). apply (den_some1_of _ _ _ _ _ is_digit_spec) in D.
    rewrite sapp_nil_r. split; [exists ds; auto|].
    split; [apply (bound_before before "arg") in X; [exact X|reflexivity]|].
    apply bound_after in Y; [exact Y|]. destruct D as [N A]. apply last_word; [exact N|].
    eapply all_chars_impl; [|exact A]. intros c C. apply is_word_spec. right. left. exact C.
  - intros ((ds & -> & D) & B & A). exists "", ("arg" ++ ds). split; [reflexivity|]. split.
    { split; [reflexivity|]. apply (bound_before before "arg"); [reflexivity|exact B]. }
    exists "arg", ds. split; [reflexivity|]. split; [apply den_lit; reflexivity|]. exists ds, "". rewrite sapp_nil_r.
    split; [reflexivity|]. split; [apply (den_some1_of _ _ _ _ _ is_digit_spec); exact D|]. split; [reflexivity|].
    apply bound_after; [|exact A]. destruct D as [N D]. apply last_word; [exact N|].
    eapply all_chars_impl; [|exact D]. intros c C. apply is_word_spec. right. left. exact C.
Qed.
Lemma not_space c : negb (is_space c) = true <-> ~ white c.
Proof. rewrite negb_true_iff, <- not_true_iff_false, is_space_spec. reflexivity. Qed.
Lemma path_den prev u rest :
  den (Cat (maybe (Chr (is_c "."))) (Cat (Chr (is_c "/")) (some1 (fun c => negb (is_space c))))) prev u rest <->
  exists t, one_of (fun c => ~ white c) t /\ (u = "/" ++ t \/ u = "./" ++ t).
Proof.
  split.
  - intros D. apply den_cat in D as (v & w & -> & M & D). apply den_cons in D as (c & t & -> & P & D). apply is_c_spec in P as ->.
    apply (den_some1_of _ _ _ _ _ not_space) in D. exists t. split; [exact D|].
    apply den_maybe in M as [(c & -> & P)| ->]; [apply is_c_spec in P as ->|]; auto.
  - intros (t & D & E). apply (den_some1_of _ _ (Some "/"%char) _ rest not_space) in D.
    assert (forall prev, den (Cat (Chr (is_c "/")) (some1 (fun c => negb (is_space c)))) prev ("/" ++ t) rest) as G.
    { intros p. apply den_cons. exists "/"%char, t. split; [reflexivity|]. split; [reflexivity|exact D]. }
    destruct E as [->| ->].
    + exists "", ("/" ++ t). split; [reflexivity|]. split; [right; reflexivity|apply G].
    + exists ".", ("/" ++ t). split; [reflexivity|]. split; [left; exists "."%char; split; reflexivity|apply G].
Qed.
Lemma ident_den prev u rest :
  den (Cat (Chr (fun c => is_letter c || is_c "_" c))
           (Many (fun c => is_letter c || is_c "_" c || is_digit c || is_c "-" c || is_c "@" c))) prev u rest <->
  exists c t, u = String c t /\ (letter c \/ c = "_"%char) /\
        all_chars (fun x => word_char x \/ x = "-"%char \/ x = "@"%char) t.
Proof.
  rewrite den_cons. cbn [den].
  assert (forall t, every (fun c => is_letter c || is_c "_" c || is_digit c || is_c "-" c || is_c "@" c) t = true <->
    all_chars (fun x => word_char x \/ x = "-"%char \/ x = "@"%char) t) as G.
  { intros t. rewrite every_all. apply all_true. intros c. rewrite !orb_true_iff, is_letter_spec, is_digit_spec, !is_c_spec. unfold word_char. tauto. }
  split; intros (c & t & -> & P & D); exists c, t; (split; [reflexivity|]); (split; [|apply G; exact D]).
  - apply orb_true_iff in P as [P|P]; [left; apply is_letter_spec|right; apply is_c_spec]; exact P.
  - apply orb_true_iff. rewrite is_letter_spec, is_c_spec. exact P.
Qed.
Lemma pair_eq {A B} (a c : A) (b d : B) : (a, b) = (c, d) -> a = c /\ b = d.
Proof. intros H. injection H as -> ->. split; reflexivity. Qed.
Lemma kind_den ty r before u rest : In (ty, r) TOKEN_SPECIFICATION -> ty <> NUMERIC_CONSTANT -> in_line (u ++ rest) ->
  den r (last_of None before) u rest <-> spelled ty u /\ delimited ty before u rest.
Proof.
  intros I NN IL. pose proof (in_line_app _ _ IL) as IR. unfold TOKEN_SPECIFICATION in I.
  repeat (destruct I as [I|I]; [apply pair_eq in I as [<- <-]|]); [..|destruct I]; cbn [spelled delimited];
  try (rewrite den_lit; tauto).
  - rewrite den_cons. split.
    + intros (c & t & -> & P & D). apply is_c_spec in P as ->. apply den_eol in D as [D ->]; [|exact IR].
      split; [exists t; reflexivity|reflexivity].
    + intros ((t & ->) & ->). exists "#"%char, t. split; [reflexivity|]. split; [reflexivity|]. apply den_eol; [exact IR|].
      split; [|reflexivity]. cbn [den]. apply every_all. rewrite sapp_nil_r in IL. apply all_chars_cons in IL as [_ IL].
      eapply all_chars_impl; [|exact IL]. intros c [N _]. apply negb_true_iff, not_true_iff_false. rewrite is_c_spec. exact N.
  - rewrite (den_some1_of _ _ _ _ _ is_space_spec). tauto.
  - rewrite den_eol by exact IR. rewrite den_chr. split; [intros [(c & -> & P) ->]; apply is_c_spec in P as ->; auto|].
    intros [-> ->]. split; [|reflexivity]. exists "\"%char. split; reflexivity.
  - rewrite (den_lit_bound "@default") by reflexivity. tauto.
  - rewrite (den_lit_bound "@include") by reflexivity. tauto.
  - rewrite (den_lit_bound "@frequency") by reflexivity. tauto.
  - rewrite den_eol by exact IR. rewrite (den_lit "@denylist"). tauto.
  - rewrite path_den. tauto.
  - congruence.
  - rewrite op_den. reflexivity.
  - rewrite arg_den. reflexivity.
  - rewrite den_word by reflexivity. tauto.
  - rewrite action_den. reflexivity.
  - rewrite ident_den. tauto.
Qed.
(* ---- Numbers, again ---- *)
Definition minus (m : string) : Prop := m = "" \/ m = "-".
Lemma den_minus_iff prev u mid : den (maybe (Chr (is_c "-"))) prev u mid <-> minus u.
Proof.
  split; [apply den_minus|]. intros [->| ->]; [right; reflexivity|left; exists "-"%char; split; reflexivity].
Qed.
Definition hex_text (u : string) : Prop :=
  exists m x h, minus m /\ (x = "x" \/ x = "X")%char /\ u = m ++ String "0" (String x h) /\ one_of hex_digit h.
Definition oct_text (u : string) : Prop := exists m h, minus m /\ u = m ++ String "0" h /\ one_of oct_digit h.
Definition dec_text (u : string) : Prop := exists m h, minus m /\ u = m ++ h /\ one_of dec_digit h.
Lemma hex_den prev u mid : den HEX_REGEX prev u mid <-> hex_text u.
Proof.
  split.
  - intros D. apply den_cat in D as (m & w & -> & M & D). apply den_cons in D as (c & t & -> & P & D). apply is_c_spec in P as ->.
    apply den_cons in D as (x & h & -> & P & D). exists m, x, h. split; [apply den_minus in M; exact M|].
    split; [apply orb_true_iff in P as [P|P]; apply is_c_spec in P as ->; auto|]. split; [reflexivity|].
    apply (den_some1_of _ _ _ _ _ is_hex_spec) in D. exact D.
  - intros (m & x & h & M & X & -> & H). exists m, (String "0" (String x h)). split; [reflexivity|].
    split; [apply den_minus_iff; exact M|]. apply den_cons. exists "0"%char, (String x h). split; [reflexivity|]. split; [reflexivity|].
    apply den_cons. exists x, h. split; [reflexivity|]. split; [destruct X as [->| ->]; reflexivity|].
    apply (den_some1_of _ _ _ _ _ is_hex_spec). exact H.
Qed.
Lemma oct_den prev u mid : den OCTAL_REGEX prev u mid <-> oct_text u.
Proof.
  split.
  - intros D. apply den_cat in D as (m & w & -> & M & D). apply den_cons in D as (c & t & -> & P & D). apply is_c_spec in P as ->.
    exists m, t. split; [apply den_minus in M; exact M|]. split; [reflexivity|].
    apply (den_some1_of _ _ _ _ _ is_octal_spec) in D. exact D.
  - intros (m & h & M & -> & H). exists m, (String "0" h). split; [reflexivity|].
    split; [apply den_minus_iff; exact M|]. apply den_cons. exists "0"%char, h. split; [reflexivity|]. split; [reflexivity|].
    apply (den_some1_of _ _ _ _ _ is_octal_spec). exact H.
Qed.
Lemma dec_den prev u mid : den DECIMAL_REGEX prev u mid <-> dec_text u.
Proof.
  split.
  - intros D. apply den_cat in D as (m & w & -> & M & D).
    exists m, w. split; [apply den_minus in M; exact M|]. split; [reflexivity|].
    apply (den_some1_of _ _ _ _ _ is_digit_spec) in D. exact D.
  - intros (m & h & M & -> & H). exists m, h. split; [reflexivity|].
    split; [apply den_minus_iff; exact M|]. apply (den_some1_of _ _ _ _ _ is_digit_spec). exact H.
Qed.
(* The texts of numbers *)
Lemma digits_one_of base s n : digits_val base s n -> one_of (fun c => exists v, digit c v /\ (v < base)%N) s.
Proof.
  intros H. induction H as [c v D L|s n c v H IH D L].
  - split; [discriminate|]. apply all_chars_cons. split; [eauto|apply all_chars_nil].
  - destruct IH as [N A]. split; [destruct s; discriminate|]. apply all_chars_app. split; [exact A|].
    apply all_chars_cons. split; [eauto|apply all_chars_nil].
Qed.
Definition odd_text (u : string) : Prop :=
  exists m c h, minus m /\ (c = "8" \/ c = "9")%char /\ u = m ++ String "0" (String c h) /\ all_chars dec_digit h.
Definition plain_text (u : string) : Prop :=
  exists m c h, minus m /\ c <> "0"%char /\ u = m ++ String c h /\ one_of dec_digit (String c h).
Definition zero_text (u : string) : Prop := exists m, minus m /\ u = m ++ "0".
Lemma magnitude_text s n m : minus m -> magnitude s n ->
  hex_text (m ++ s) \/ oct_text (m ++ s) \/ zero_text (m ++ s) \/ plain_text (m ++ s).
Proof.
  intros M H. destruct H as [s n Z D|s n D|s n D|s n D].
  - apply digits_one_of in D. right. right. right. destruct s as [|c s]; [destruct D; congruence|].
    exists m, c, s. split; [exact M|]. split; [intros ->; eapply Z; reflexivity|]. split; [reflexivity|exact D].
  - apply digits_one_of in D as [_ A]. apply all_chars_cons in A as [_ A]. right.
    destruct s as [|c s]; [right; left; exists m; auto|]. left. exists m, (String c s). split; [exact M|]. split; [reflexivity|].
    split; [discriminate|exact A].
  - apply digits_one_of in D. left. exists m, "x"%char, s. auto 6.
  - apply digits_one_of in D. left. exists m, "X"%char, s. auto 6.
Qed.
Lemma number_text u z : number u z -> hex_text u \/ oct_text u \/ zero_text u \/ plain_text u \/ odd_text u.
Proof.
  intros H. destruct H as [s n H|s n H|c s n C D|c s n C D].
  - apply (magnitude_text s n "") in H; [|left; reflexivity]. tauto.
  - apply (magnitude_text s n "-") in H; [|right; reflexivity]. tauto.
  - right. right. right. right. apply digits_one_of in D as [_ A]. apply all_chars_cons in A as [_ A]. apply all_chars_cons in A as [_ A].
    exists "", c, s. split; [left; reflexivity|]. auto.
  - right. right. right. right. apply digits_one_of in D as [_ A]. apply all_chars_cons in A as [_ A]. apply all_chars_cons in A as [_ A].
    exists "-", c, s. split; [right; reflexivity|]. auto.
Qed.
(* A number begins with its sign. *)
Lemma same_sign m m' c s t c' t' rest rest' : minus m -> minus m' -> c <> "-"%char -> c' <> "-"%char ->
  s = (m ++ String c t) ++ rest -> s = (m' ++ String c' t') ++ rest' -> m = m' /\ c = c' /\ t ++ rest = t' ++ rest'.
Proof.
  intros M M' N N' -> E. destruct M as [->| ->]; destruct M' as [->| ->]; cbn in E; injection E; intros; subst; auto; congruence.
Qed.
Lemma not_minus_dec c : dec_digit c -> c <> "-"%char.
Proof. intros H. apply is_digit_spec in H. intros ->. discriminate H. Qed.
Lemma oct_dec c : oct_digit c -> dec_digit c.
Proof. intros (v & D & L). exists v. split; [exact D|lia]. Qed.
Lemma not_x_dec c : (c = "x" \/ c = "X")%char -> ~ dec_digit c.
Proof. intros X D. apply is_digit_spec in D. destruct X as [->| ->]; discriminate D. Qed.
Lemma odd_not_oct c : (c = "8" \/ c = "9")%char -> ~ oct_digit c.
Proof. intros X D. apply is_octal_spec in D. destruct X as [->| ->]; discriminate D. Qed.
Lemma odd_dec c : (c = "8" \/ c = "9")%char -> dec_digit c.
Proof. intros [->| ->]; apply is_digit_spec; reflexivity. Qed.
(* Every text of a number can be read by one of the three expressions. *)
Lemma number_den u z prev rest : number u z -> den (alts [HEX_REGEX; OCTAL_REGEX; DECIMAL_REGEX]) prev u rest.
Proof.
  intros H. apply den_alts; [discriminate|]. apply number_text in H as [H|[H|[H|[H|H]]]].
  - exists HEX_REGEX. split; [cbn; tauto|apply hex_den; exact H].
  - exists OCTAL_REGEX. split; [cbn; tauto|apply oct_den; exact H].
  - exists DECIMAL_REGEX. split; [cbn; tauto|]. apply dec_den. destruct H as (m & M & ->). exists m, "0". split; [exact M|]. split; [reflexivity|].
    split; [discriminate|]. apply all_chars_cons. split; [apply is_digit_spec; reflexivity|apply all_chars_nil].
  - exists DECIMAL_REGEX. split; [cbn; tauto|]. apply dec_den. destruct H as (m & c & h & M & _ & -> & D). exists m, (String c h). auto.
  - exists DECIMAL_REGEX. split; [cbn; tauto|]. apply dec_den. destruct H as (m & c & h & M & C & -> & D). exists m, (String "0" (String c h)).
    split; [exact M|]. split; [reflexivity|]. split; [discriminate|].
    apply all_chars_cons. split; [apply is_digit_spec; reflexivity|]. apply all_chars_cons. split; [apply odd_dec; exact C|exact D].
Qed.
Lemma match_cat {T} a b prev s (k : option ascii -> string -> option T) x : matching (Cat a b) prev s k = Some x -> exists prev' s', matching b prev' s' k = Some x.
Proof. intros H. destruct (matching_sound a _ _ _ _ H) as (u & mid & _ & _ & K). eauto. Qed.
Lemma greedy_end p prev s rest : matching (some1 p) prev s (fun _ s => Some s) = Some rest ->
  forall c t, rest = String c t -> p c = false.
Proof.
  intros H. apply match_cat in H as (prev' & s' & H). destruct (many_greedy _ _ _ _ H) as (w & _ & _ & F). exact F.
Qed.
Lemma numeric_sound prev s rest : re_match (alts [HEX_REGEX; OCTAL_REGEX; DECIMAL_REGEX]) prev s = Some rest ->
  exists u, s = u ++ rest /\ (exists z, number u z) /\
    forall u' rest', s = u' ++ rest' -> (exists z, number u' z) -> (String.length u' <= String.length u)%nat.
Proof.
  intros H. unfold re_match in H. cbn [alts matching] in H.
  assert (dec_digit "0") as D0 by (apply is_digit_spec; reflexivity).
  destruct (matching HEX_REGEX prev s (fun _ s => Some s)) eqn:M1.
  { injection H as ->. destruct (re_match_sound _ _ _ _ M1) as (u & E & D). exists u. split; [exact E|].
    split; [eapply hex_number, D|]. apply hex_den in D as (m & x & h & M & X & -> & D). intros u' rest' E' (z & N).
    assert (forall c t, rest = String c t -> ~ hex_digit c) as G.
    { intros c t -> C. apply is_hex_spec in C.
      assert (is_hex c = false); [|congruence].
      apply match_cat in M1 as (? & ? & M1). apply match_cat in M1 as (? & ? & M1). apply match_cat in M1 as (? & ? & M1). eapply greedy_end; [exact M1|reflexivity]. }
    apply number_text in N as [N|[N|[N|[N|N]]]].
    - destruct N as (m' & x' & h' & M' & X' & -> & D').
      destruct (same_sign m m' "0" s _ "0" _ rest rest' M M' ltac:(discriminate) ltac:(discriminate) E E') as (<- & _ & E2).
      injection E2 as <- E2. pose proof (longest_run hex_digit _ _ _ _ E2 G (proj2 D')). rewrite !slen_app. cbn. lia.
    - destruct N as (m' & h' & M' & -> & D').
      destruct (same_sign m m' "0" s _ "0" _ rest rest' M M' ltac:(discriminate) ltac:(discriminate) E E') as (<- & _ & E2).
      destruct h' as [|c h']; [destruct D'; congruence|]. injection E2 as <- E2. destruct D' as [_ D']. apply all_chars_cons in D' as [D' _].
      apply oct_dec in D'. exfalso. eapply not_x_dec; eassumption.
    - destruct N as (m' & M' & ->).
      destruct (same_sign m m' "0" s _ "0" "" rest rest' M M' ltac:(discriminate) ltac:(discriminate) E E') as (<- & _ & E2).
      rewrite !slen_app. cbn. lia.
    - destruct N as (m' & c & h' & M' & Z & -> & D').
      assert (c <> "-"%char) as NM. { apply not_minus_dec. destruct D' as [_ D']. apply all_chars_cons in D' as [D' _]. exact D'. }
      destruct (same_sign m m' "0" s _ c _ rest rest' M M' ltac:(discriminate) NM E E') as (<- & E2 & _). congruence.
    - destruct N as (m' & c & h' & M' & C & -> & D').
      destruct (same_sign m m' "0" s _ "0" _ rest rest' M M' ltac:(discriminate) ltac:(discriminate) E E') as (<- & _ & E2).
      injection E2 as <- E2. exfalso. eapply not_x_dec; [exact X|apply odd_dec; exact C]. }
  destruct (matching OCTAL_REGEX prev s (fun _ s => Some s)) eqn:M2.
  { injection H as ->. destruct (re_match_sound _ _ _ _ M2) as (u & E & D). exists u. split; [exact E|].
    split; [eapply octal_number, D|]. apply oct_den in D as (m & h & M & -> & D). intros u' rest' E' (z & N).
    assert (forall c t, rest = String c t -> ~ oct_digit c) as G.
    { intros c t -> C. apply is_octal_spec in C.
      assert (is_octal c = false); [|congruence].
      apply match_cat in M2 as (? & ? & M2). apply match_cat in M2 as (? & ? & M2). eapply greedy_end; [exact M2|reflexivity]. }
    destruct h as [|d h]; [destruct D; congruence|].
    assert (oct_digit d) as Dd. { destruct D as [_ D]. apply all_chars_cons in D as [D _]. exact D. }
    apply number_text in N as [N|[N|[N|[N|N]]]].
    - destruct N as (m' & x' & h' & M' & X' & -> & D').
      destruct (same_sign m m' "0" s _ "0" _ rest rest' M M' ltac:(discriminate) ltac:(discriminate) E E') as (<- & _ & E2).
      injection E2 as <- E2. exfalso. eapply not_x_dec; [exact X'|apply oct_dec; exact Dd].
    - destruct N as (m' & h' & M' & -> & D').
      destruct (same_sign m m' "0" s _ "0" _ rest rest' M M' ltac:(discriminate) ltac:(discriminate) E E') as (<- & _ & E2).
      pose proof (longest_run oct_digit _ _ _ _ E2 G (proj2 D')). rewrite !slen_app. cbn [String.length] in *. lia.
    - destruct N as (m' & M' & ->).
      destruct (same_sign m m' "0" s _ "0" "" rest rest' M M' ltac:(discriminate) ltac:(discriminate) E E') as (<- & _ & E2).
      rewrite !slen_app. cbn. lia.
    - destruct N as (m' & c & h' & M' & Z & -> & D').
      assert (c <> "-"%char) as NM. { apply not_minus_dec. destruct D' as [_ D']. apply all_chars_cons in D' as [D' _]. exact D'. }
      destruct (same_sign m m' "0" s _ c _ rest rest' M M' ltac:(discriminate) NM E E') as (<- & E2 & _). congruence.
    - destruct N as (m' & c & h' & M' & C & -> & D').
      destruct (same_sign m m' "0" s _ "0" _ rest rest' M M' ltac:(discriminate) ltac:(discriminate) E E') as (<- & _ & E2).
      injection E2 as <- E2. exfalso. eapply odd_not_oct; eassumption. }
  destruct (re_match_sound _ _ _ _ H) as (u & E & D). exists u. split; [exact E|].
  apply dec_den in D as (m & h & M & -> & D).
  assert (forall c t, rest = String c t -> ~ dec_digit c) as G.
  { intros c t -> C. apply is_digit_spec in C.
    assert (is_digit c = false); [|congruence].
      apply match_cat in H as (? & ? & H). eapply greedy_end; [exact H|reflexivity]. }
  assert (forall u rest, s = u ++ rest -> ~ hex_text u) as NH.
  { intros u' r' -> X. apply (hex_den prev u' r') in X. apply re_match_complete in X. contradiction. }
  assert (forall u rest, s = u ++ rest -> ~ oct_text u) as NO.
  { intros u' r' -> X. apply (oct_den prev u' r') in X. apply re_match_complete in X. contradiction. }
  split.
  - destruct (decimal_number h) as (n & G1 & G2); [apply D|apply D| |].
    + intros c t -> O. apply (NO (m ++ String "0" (String c "")) (t ++ rest)).
      * rewrite E, !sapp_assoc. reflexivity.
      * exists m, (String c ""). split; [exact M|]. split; [reflexivity|]. split; [discriminate|].
        apply all_chars_cons. split; [exact O|apply all_chars_nil].
    + destruct M as [->| ->]; eauto.
  - intros u' rest' E' (z & N). destruct h as [|d h]; [destruct D; congruence|].
    assert (d <> "-"%char) as Nd. { apply not_minus_dec. destruct D as [_ D]. apply all_chars_cons in D as [D _]. exact D. }
    apply number_text in N as [N|[N|[N|[N|N]]]].
    + exfalso. eapply NH; eassumption.
    + exfalso. eapply NO; eassumption.
    + destruct N as (m' & M' & ->).
      destruct (same_sign m m' d s _ "0" "" rest rest' M M' Nd ltac:(discriminate) E E') as (<- & _ & E2).
      rewrite !slen_app. cbn. lia.
    + destruct N as (m' & c & h' & M' & Z & -> & D').
      assert (c <> "-"%char) as NM. { apply not_minus_dec. destruct D' as [_ D']. apply all_chars_cons in D' as [D' _]. exact D'. }
      destruct (same_sign m m' d s _ c _ rest rest' M M' Nd NM E E') as (<- & <- & E2). destruct D' as [_ D']. apply all_chars_cons in D' as [_ D'].
      pose proof (longest_run dec_digit _ _ _ _ E2 G D'). rewrite !slen_app. cbn [String.length] in *. lia.
    + destruct N as (m' & c & h' & M' & C & -> & D').
      destruct (same_sign m m' d s _ "0" _ rest rest' M M' Nd ltac:(discriminate) E E') as (<- & _ & E2).
      assert (all_chars dec_digit (String c h')) as A. { apply all_chars_cons. split; [apply odd_dec; exact C|exact D']. }
      pose proof (longest_run dec_digit _ _ _ _ E2 G A). rewrite !slen_app. cbn [String.length] in *. lia.
Qed.
(* ---- One word ---- *)
Lemma spelled_nonempty ty s : spelled ty s -> s <> "".
Proof.
  destruct ty; cbn; try (intros ->; discriminate).
  - intros (t & ->). discriminate.
  - intros [N _]. exact N.
  - intros (t & _ & [->| ->]); discriminate.
  - intros (z & H). apply (number_den s z None "") in H. apply den_alts in H as (r & I & D); [|discriminate].
    assert (forall m (h : string), h <> "" -> m ++ h <> "") as G by (intros [] h N; [exact N|discriminate]).
    destruct I as [<-|[<-|[<-|[]]]].
    + apply hex_den in D as (m & x & h & _ & _ & -> & _). apply G. discriminate.
    + apply oct_den in D as (m & h & _ & -> & _). apply G. discriminate.
    + apply dec_den in D as (m & h & _ & -> & N & _). apply G. exact N.
  - intros (o & O). destruct o; cbn in O; subst; discriminate.
  - intros (ds & -> & _). discriminate.
  - intros I. repeat (destruct I as [<-|I]; [discriminate|]). destruct I.
  - intros (c & t & -> & _). discriminate.
Qed.
Lemma kind_complete ty r before s u rest : In (ty, r) TOKEN_SPECIFICATION -> in_line s -> fits ty before s u rest ->
  re_match r (last_of None before) s <> None.
Proof.
  intros I IL (-> & S & D). apply re_match_complete.
  assert (ty = NUMERIC_CONSTANT \/ ty <> NUMERIC_CONSTANT) as [->|N] by (destruct ty; auto; right; discriminate).
  - unfold TOKEN_SPECIFICATION in I.
    repeat (destruct I as [I|I]; [apply pair_eq in I as [E <-]; try discriminate E|]); [|destruct I].
    destruct S as (z & S). eapply number_den, S.
  - apply (kind_den ty r before u rest I N IL). auto.
Qed.
Lemma prefix_compare (u v a b : string) : u ++ a = v ++ b -> (String.length u < String.length v)%nat -> exists c w, v = u ++ String c w.
Proof.
  revert v. induction u as [|x u IH]; intros v E L; cbn in *.
  - destruct v as [|c w]; [cbn in L; lia|]. eauto.
  - destruct v as [|y v]; [cbn in L; lia|]. injection E as <- E. cbn in L. destruct (IH v E ltac:(lia)) as (c & w & ->). exists c, w. reflexivity.
Qed.
Fixpoint ordered (names : list string) : bool :=
  match names with [] => true | x :: t => forallb (fun y => negb (String.prefix x y)) t && ordered t end.
Lemma prefix_app x y : String.prefix x (x ++ y) = true.
Proof. induction x as [|c x IH]; cbn; [destruct y; reflexivity|]. destruct (ascii_dec c c); [exact IH|congruence]. Qed.
Lemma alts_longest (names : list string) (f : string -> re) prev s u rest u' rest' :
  (forall n prev u rest, In n names -> den (f n) prev u rest -> u = n) -> ordered names = true -> names <> [] ->
  re_match (alts (map f names)) prev s = Some rest -> s = u ++ rest -> s = u' ++ rest' ->
  den (alts (map f names)) prev u' rest' -> (String.length u' <= String.length u)%nat.
Proof.
  intros K O NE M E E' D. apply den_alts in D as (r' & I' & D'); [|destruct names; [congruence|discriminate]].
  apply in_map_iff in I' as (n' & <- & I'). pose proof (K _ _ _ _ I' D') as ->.
  apply alts_first in M as (a & r & b & EL & M & F); [|destruct names; [congruence|discriminate]].
  apply map_eq_app in EL as (na & nb & -> & <- & EL). destruct nb as [|n nb]; [discriminate EL|]. injection EL as <- <-.
  destruct (re_match_sound _ _ _ _ M) as (v & EV & DV). assert (v = u) as -> by (rewrite EV in E; apply sapp_inj_r in E; exact E).
  assert (In n (na ++ n :: nb)) as In' by (apply in_or_app; right; left; reflexivity).
  pose proof (K _ _ _ _ In' DV) as ->.
  destruct (Nat.le_gt_cases (String.length n') (String.length n)) as [L|L]; [exact L|exfalso].
  rewrite EV in E'. destruct (prefix_compare _ _ _ _ E' L) as (c & w & P).
  apply in_app_or in I' as [I'|[<-|I']].
  - assert (re_match (f n') prev s = None) as X. { rewrite Forall_forall in F. apply F, in_map, I'. }
    rewrite EV, E' in X. eapply re_match_complete; [exact D'|exact X].
  - lia.
  - clear -O P I'. induction na as [|x na IH]; cbn in O; apply andb_true_iff in O as [A B]; [|exact (IH B)].
    rewrite forallb_forall in A. specialize (A _ I'). rewrite P, prefix_app in A. discriminate A.
Qed.
Lemma den_run prev s rest (q : re) p : re_match (Cat q (Many p)) prev s = Some rest -> forall c t, rest = String c t -> p c = false.
Proof.
  intros H. apply match_cat in H as (prev' & s' & H). destruct (many_greedy _ _ _ _ H) as (w & _ & _ & F). exact F.
Qed.
Lemma kind_longest ty r before s rest u u' rest' : In (ty, r) TOKEN_SPECIFICATION -> ty <> NUMERIC_CONSTANT -> in_line s ->
  re_match r (last_of None before) s = Some rest -> s = u ++ rest -> fits ty before s u rest -> fits ty before s u' rest' ->
  (String.length u' <= String.length u)%nat.
Proof.
  intros I NN IL M E (_ & S & D) (E' & S' & D'). unfold TOKEN_SPECIFICATION in I.
  repeat (destruct I as [I|I]; [apply pair_eq in I as [<- <-]|]); [..|destruct I]; cbn [spelled delimited] in *;
  try (rewrite S, S'; lia).
  - apply (f_equal String.length) in E, E'. subst rest rest'. rewrite slen_app in E, E'. cbn in *. lia.
  - assert (forall c t, rest = String c t -> ~ white c) as G.
    { intros c t R W. apply is_space_spec in W. pose proof (den_run _ _ _ _ _ M c t R). congruence. }
    rewrite E in E'. exact (longest_run white _ _ _ _ E' G (proj2 S')).
  - assert (forall c t, rest = String c t -> ~ ~ white c) as G.
    { intros c t R W. apply not_space in W. apply match_cat in M as (p1 & s1 & M). apply match_cat in M as (p2 & s2 & M).
      pose proof (greedy_end _ _ _ _ M c t R) as F. cbv beta in F. congruence. }
    destruct S as (t & [N A] & B). destruct S' as (t' & [N' A'] & B'). rewrite E in E'.
    destruct B as [->| ->]; destruct B' as [->| ->]; try discriminate E'.
    + injection E' as E'. pose proof (longest_run _ _ _ _ _ E' G A'). cbn. lia.
    + injection E' as E'. pose proof (longest_run _ _ _ _ _ E' G A'). cbn. lia.
  - congruence.
  - set (f := fun n => if String.eqb n "in" then word_lit n else lit n).
    rewrite E in E'. eapply (alts_longest ["&"; "in"; "=="; "!="; "<="; "<"; ">="; ">"] f (last_of None before) s u rest u' rest');
      [|reflexivity|discriminate|exact M|exact E|rewrite E; exact E'|apply (proj2 (op_den before u' rest')); auto].
    intros n p v w _. unfold f. destruct (String.eqb n "in"); [apply den_word_lit|apply den_lit].
  - destruct S as (ds & -> & N & A). destruct S' as (ds' & -> & N' & A'). rewrite E in E'. injection E' as E'.
    assert (forall c t, rest = String c t -> ~ dec_digit c) as G.
    { intros c t -> C. apply (proj2 D). exists c, t. split; [reflexivity|]. right. left. exact C. }
    pose proof (longest_run _ _ _ _ _ E' G A'). cbn. lia.
  - eapply (alts_longest actions_named word_lit (last_of None before) s u rest u' rest');
      [|reflexivity|discriminate|exact M|exact E|exact E'|apply (proj2 (action_den before u' rest')); auto].
    intros n p v w _. apply den_word_lit.
  - destruct S as (c & t & -> & C & A). destruct S' as (c' & t' & -> & C' & A'). rewrite E in E'. injection E' as <- E'.
    assert (forall c t, rest = String c t -> ~ (word_char c \/ c = "-"%char \/ c = "@"%char)) as G.
    { intros x r R W. pose proof (den_run _ _ _ _ _ M x r R) as F. cbv beta in F.
      assert (is_letter x || is_c "_" x || is_digit x || is_c "-" x || is_c "@" x = true); [|congruence].
      rewrite !orb_true_iff, is_letter_spec, is_digit_spec, !is_c_spec. unfold word_char in W. tauto. }
    pose proof (longest_run _ _ _ _ _ E' G A'). cbn. lia.
Qed.
Lemma kind_sound ty r before s rest : In (ty, r) TOKEN_SPECIFICATION -> in_line s -> re_match r (last_of None before) s = Some rest ->
  exists u, fits ty before s u rest /\ forall u' rest', fits ty before s u' rest' -> (String.length u' <= String.length u)%nat.
Proof.
  intros I IL M.
  assert (ty = NUMERIC_CONSTANT \/ ty <> NUMERIC_CONSTANT) as [->|N] by (destruct ty; auto; right; discriminate).
  - unfold TOKEN_SPECIFICATION in I.
    repeat (destruct I as [I|I]; [apply pair_eq in I as [E <-]; try discriminate E|]); [|destruct I].
    destruct (numeric_sound _ _ _ M) as (u & -> & Z & L). exists u. split; [repeat split; exact Z|].
    intros u' rest' (E' & S' & _). eapply L; eassumption.
  - destruct (re_match_sound _ _ _ _ M) as (u & E & D). exists u. pose proof IL as IL'. rewrite E in IL'.
    apply (kind_den ty r before u rest I N IL') in D. assert (fits ty before s u rest) as F by (split; [exact E|exact D]).
    split; [exact F|]. intros u1 rest1 F1. exact (kind_longest ty r before s rest u u1 rest1 I N IL M E F F1).
Qed.

(* ---- The next word ---- *)
Lemma kinds_specification : map fst TOKEN_SPECIFICATION = kinds.
Proof. reflexivity. Qed.
Lemma token_at_split specs prev s ty n : token_at specs prev s = Some (ty, n) ->
  exists l r rest m, specs = (l ++ (ty, r) :: m)%list /\ Forall (fun p => re_match (snd p) prev s = None) l /\
    re_match r prev s = Some rest /\ n = (String.length s - String.length rest)%nat.
Proof.
  induction specs as [|(ty', r') specs IH]; [discriminate|]. cbn. destruct (re_match r' prev s) as [rest|] eqn:M.
  - intros H. injection H as <- <-. exists [], r', rest, specs. auto.
  - intros H. destruct (IH H) as (l & r & rest & m & -> & F & G & L). exists ((ty', r') :: l), r, rest, m. auto.
Qed.
Lemma token_at_found specs prev s l ty r m rest : specs = (l ++ (ty, r) :: m)%list ->
  Forall (fun p => re_match (snd p) prev s = None) l -> re_match r prev s = Some rest ->
  token_at specs prev s = Some (ty, (String.length s - String.length rest)%nat).
Proof.
  intros -> F G. induction F as [|(ty', r') l A F IH]; cbn [app token_at].
  - rewrite G. reflexivity.
  - cbn [snd] in A. rewrite A. exact IH.
Qed.
Lemma kinds_nodup : NoDup kinds.
Proof. unfold kinds. repeat (constructor; [cbn; intuition discriminate|]). constructor. Qed.
Lemma token_at_sound before s ty n : in_line s -> token_at TOKEN_SPECIFICATION (last_of None before) s = Some (ty, n) ->
  exists u rest, next_word ty before s u rest /\ n = String.length u.
Proof.
  intros IL H. apply token_at_split in H as (l & r & rest & m & E & F & M & ->).
  assert (In (ty, r) TOKEN_SPECIFICATION) as I by (rewrite E; apply in_or_app; right; left; reflexivity).
  destruct (kind_sound ty r before s rest I IL M) as (u & FT & L). exists u, rest. split.
  - split; [exact FT|]. split; [exact L|]. intros ty' u' rest' (l1 & l2 & l3 & K) F'.
    (* an earlier kind is in l *)
    rewrite <- kinds_specification, E, map_app in K. cbn in K.
    assert (exists r', In (ty', r') l) as (r' & I').
    { pose proof kinds_nodup as ND. rewrite <- kinds_specification, E, map_app in ND. cbn in ND.
      assert (~ In ty (map fst l ++ map fst m)) as NI by (apply NoDup_remove_2 in ND; exact ND).
      replace (l1 ++ ty' :: l2 ++ ty :: l3)%list with ((l1 ++ ty' :: l2) ++ ty :: l3)%list in K by (rewrite <- app_assoc; reflexivity).
      assert (map fst l = (l1 ++ ty' :: l2)%list) as EL.
      { revert K NI. generalize (l1 ++ ty' :: l2)%list (map fst l). clear. intros a. induction a as [|x a IH]; intros [|y b] K NI; cbn in K.
        - reflexivity.
        - injection K as -> K. exfalso. apply NI. left. reflexivity.
        - injection K as <- K. exfalso. apply NI. cbn. rewrite K. apply in_or_app. right. left. reflexivity.
        - injection K as <- K. f_equal. apply IH; [exact K|]. intros J. apply NI. right. exact J. }
      assert (In ty' (map fst l)) as J by (rewrite EL; apply in_or_app; right; left; reflexivity).
      apply in_map_iff in J as ([t' r'] & <- & J). exists r'. exact J. }
    assert (re_match r' (last_of None before) s = None) as X. { rewrite Forall_forall in F. exact (F _ I'). }
    refine (kind_complete ty' r' before s u' rest' _ IL F' X). rewrite E. apply in_or_app. left. exact I'.
  - destruct FT as (-> & _ & _). rewrite slen_app. lia.
Qed.
Lemma next_word_unique ty before s u rest ty' u' rest' :
  next_word ty before s u rest -> next_word ty' before s u' rest' -> ty = ty' /\ u = u' /\ rest = rest'.
Proof.
  intros (F & L & E) (F' & L' & E').
  assert (ty = ty') as <-.
  { assert (earlier ty ty' \/ earlier ty' ty \/ ty = ty') as [X|[X|X]]; [| | |exact X].
    - assert (forall t, In t kinds) as IK by (intros []; cbn; tauto).
      destruct (in_split _ _ (IK ty)) as (a & b & K). pose proof (IK ty') as I. rewrite K in I. apply in_app_or in I as [I|[I|I]].
      + apply in_split in I as (x & y & ->). right. left. exists x, y, b. rewrite K, <- app_assoc. reflexivity.
      + right. right. exact I.
      + apply in_split in I as (x & y & ->). left. exists a, x, y. exact K.
    - exfalso. eapply E'; eassumption.
    - exfalso. eapply E; eassumption. }
  split; [reflexivity|]. pose proof (L _ _ F') as A. pose proof (L' _ _ F) as B. destruct F as (-> & _). destruct F' as (G & _).
  apply sapp_inj_len in G; [exact G|lia].
Qed.
Lemma token_at_complete before s ty u rest : in_line s -> next_word ty before s u rest ->
  token_at TOKEN_SPECIFICATION (last_of None before) s = Some (ty, String.length u).
Proof.
  intros IL W. destruct (token_at TOKEN_SPECIFICATION (last_of None before) s) as [[ty' n]|] eqn:T.
  - destruct (token_at_sound _ _ _ _ IL T) as (u' & rest' & W' & ->).
    destruct (next_word_unique _ _ _ _ _ _ _ _ W W') as (-> & -> & _). reflexivity.
  - exfalso. destruct W as (F & _).
    assert (In ty (map fst TOKEN_SPECIFICATION)) as I by (rewrite kinds_specification; destruct ty; cbn; tauto).
    apply in_map_iff in I as ([ty' r] & E & I). cbn [fst] in E. subst ty'.
    apply (kind_complete ty r before s u rest I IL F). revert T I.
    generalize TOKEN_SPECIFICATION. clear. induction l as [|(t, q) l IH]; intros T I; [destruct I|]. cbn [token_at] in T.
    destruct (re_match q (last_of None before) s) eqn:M; [discriminate|]. destruct I as [I|I].
    + apply pair_eq in I as [_ <-]. exact M.
    + exact (IH T I).
Qed.

(* ---- Lines ---- *)
Lemma lex_skip u rest : forall prev, lex prev (u ++ rest) (String.length u) = lex (last_of prev u) rest 0.
Proof. induction u as [|c u IH]; intros prev; [reflexivity|]. cbn [append String.length lex last_of]. apply IH. Qed.
Lemma substring_app_l u r : substring 0 (String.length u) (u ++ r) = u.
Proof. induction u as [|c u IH]; cbn; [destruct r; reflexivity|]. rewrite IH. reflexivity. Qed.
Lemma some_eq {A} (a b : A) : Some a = Some b -> a = b.
Proof. intros H. injection H as ->. reflexivity. Qed.
Lemma lex_cut_after n : forall s before ts, (String.length s <= n)%nat -> in_line s ->
  lex (last_of None before) s 0 = Some ts <-> cut_after before s ts.
Proof.
  induction n as [|n IH]; intros s before ts L IL.
  - destruct s; [|cbn in L; lia]. cbn. split; [intros H; injection H as <-; constructor|].
    intros H. inversion H as [|? ? ty u rest ? W _]; subst; [reflexivity|].
    destruct W as ((E & S & _) & _). symmetry in E. apply sapp_eq_nil in E as [-> _]. exfalso. exact (spelled_nonempty _ _ S eq_refl).
  - destruct s as [|c s].
    { apply (IH "" before ts); [cbn; lia|exact IL]. }
    assert (forall ty u rest, next_word ty before (String c s) u rest ->
      exists u', u = String c u' /\ s = u' ++ rest /\ lex (Some c) s (String.length u - 1) = lex (last_of None (before ++ u)) rest 0 /\
        (String.length rest <= n)%nat /\ in_line rest) as G.
    { intros ty u rest ((E & S & _) & _). destruct u as [|x u]; [exfalso; exact (spelled_nonempty _ _ S eq_refl)|].
      injection E as <- ->. exists u. split; [reflexivity|]. split; [reflexivity|]. split.
      - cbn [String.length]. rewrite Nat.sub_succ, Nat.sub_0_r, lex_skip, last_of_app. reflexivity.
      - cbn in L. rewrite slen_app in L. split; [lia|]. apply all_chars_cons in IL as [_ IL]. eapply in_line_app, IL. }
    split.
    + cbn [lex]. destruct (token_at TOKEN_SPECIFICATION (last_of None before) (String c s)) as [[ty k]|] eqn:T; [|discriminate].
      destruct (token_at_sound _ _ _ _ IL T) as (u & rest & W & ->). destruct (G _ _ _ W) as (u' & EU & ES & EL & LR & ILR).
      rewrite EL. destruct (lex (last_of None (before ++ u)) rest 0) as [l|] eqn:X; [|discriminate].
      intros H. apply some_eq in H as <-. apply IH in X; [|assumption..].
      assert (substring 0 (String.length u) (String c s) = u) as ->.
      { rewrite EU, ES. change (String c (u' ++ rest)) with (String c u' ++ rest). apply substring_app_l. }
      eapply ct_word; eassumption.
    + intros H. remember (String c s) as s0 eqn:ES0. destruct H as [|before s0 ty u rest ts W H]; [discriminate|]. subst s0.
      destruct (G _ _ _ W) as (u' & EU & ES & EL & LR & ILR). cbn [lex]. rewrite (token_at_complete _ _ _ _ _ IL W), EL.
      apply IH in H; [|assumption..]. rewrite H.
      assert (substring 0 (String.length u) (String c s) = u) as ->.
      { rewrite EU, ES. change (String c (u' ++ rest)) with (String c u' ++ rest). apply substring_app_l. }
      reflexivity.
Qed.
Theorem lex_cut line ts : in_line line -> lex None line 0 = Some ts <-> cut line ts.
Proof. apply (lex_cut_after (String.length line) line "" ts). lia. Qed.
Lemma cut_spelled before s ts : cut_after before s ts -> Forall (fun t => spelled (t_type t) (t_value t)) ts.
Proof. intros H. induction H as [|before s ty u rest ts ((_ & S & _) & _) H IH]; constructor; assumption. Qed.
Lemma concat_cons x l : String.concat "" (x :: l) = x ++ String.concat "" l.
Proof. destruct l; cbn; [rewrite sapp_nil_r|]; reflexivity. Qed.
Lemma cut_whole before s ts : cut_after before s ts -> s = String.concat "" (map t_value ts).
Proof.
  intros H. induction H as [|before s ty u rest ts ((-> & _) & _) H IH]; [reflexivity|].
  cbn [map]. rewrite concat_cons, <- IH. reflexivity.
Qed.
