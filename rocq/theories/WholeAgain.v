(** Facts about filling the envelopes of a journal of whole amounts twice. *)
From Coq Require Import ZArith NArith List Bool Reals String Lia Lra Permutation.
From Flocq Require Import Core.
From Verif Require Import Base Str F64 Date Amount Posting Entry Envelope Account World Register Ledger
  SpecAmount SpecDate SpecEntry SpecEnvelope SpecHistory SpecLedger SpecOrder SpecWhole StrFacts F64Facts AmountFacts EntryFacts DateFacts
  BarFacts EnvelopeFacts FillFacts AccountFacts LedgerFacts PropertiesHistory OrderFacts PropertiesOrder WholeFacts.
Import ListNotations.
Local Open Scope Z_scope.

Lemma int_unique x a b : is_int x a -> is_int x b -> a = b.
Proof. intros [_ A] [_ C]. apply eq_IZR. congruence. Qed.

(** ** What an envelope holds *)
Definition has (n : Z) (v : envelope) (s : Z) : Prop :=
  in_currency v /\ exists x y, is_int (mag (v_now v)) x /\ is_int (mag (v_next v)) y /\ x + y = s /\ Z.abs x + Z.abs y <= n.
Lemma moved_has today v a d w n s z : moved today v a d w -> has n v s -> is_int (mag a) z -> n + Z.abs z <= 2 ^ 53 -> has (n + Z.abs z) w (s + z).
Proof.
  intros M (C & x & y & X & Y & E & L) Z B. split; [exact (moved_currency _ _ _ _ _ M C)|].
  destruct M as (_ & _ & [(_ & (_ & N) & K)|[(_ & _ & (_ & N) & K)|[(_ & _ & (_ & N) & K)|(Ng & Ps & N & K)]]]).
  - exists (x + z), y. rewrite N, K. cbn [mag]. split; [apply fadd_int; [exact X|exact Z|lia]|]. split; [exact Y|lia].
  - exists (x + z), y. rewrite N, K. cbn [mag]. split; [apply fadd_int; [exact X|exact Z|lia]|]. split; [exact Y|lia].
  - exists x, (y + z). rewrite N, K. cbn [mag]. split; [exact X|]. split; [apply fadd_int; [exact Y|exact Z|lia]|lia].
  - exists x, y. rewrite N, K. split; [exact X|]. split; [exact Y|].
    unfold negative in Ng. unfold positive in Ps. rewrite (int_less _ _ _ _ Z fzero_int) in Ng. rewrite (int_less _ _ _ _ fzero_int Z) in Ps.
    rewrite Z.ltb_lt in *. lia.
Qed.
Lemma moved_all_has today d v ls w : moved_all today d v ls w -> forall ys n s, Forall2 (fun a y => is_int (mag a) y) ls ys ->
  has n v s -> n + size ys <= 2 ^ 53 -> has (n + size ys) w (s + Zsum ys).
Proof.
  induction 1 as [v|v a u l w M _ IH]; intros ys n s F S L; inversion F as [|? y ? ys' Y F']; subst.
  - change (size []) with 0. change (Zsum []) with 0. rewrite !Z.add_0_r. exact S.
  - rewrite size_cons, Zsum_cons in *. pose proof (size_nonneg ys'). rewrite !Z.add_assoc. apply IH; [exact F'| |lia].
    apply (moved_has _ _ _ _ _ _ _ _ M); [exact S|exact Y|lia].
Qed.

(** ** Sums by currency *)
Fixpoint part (sym : option str) (vs : list envelope) (ss : list Z) : Z :=
  match vs, ss with
  | v :: vs', s :: ss' => (if sym_dec (symbol (v_amount v)) sym then s else 0) + part sym vs' ss'
  | _, _ => 0
  end.
Lemma part_app sym vs : forall ss vs' ss', List.length vs = List.length ss -> part sym (vs ++ vs') (ss ++ ss') = part sym vs ss + part sym vs' ss'.
Proof.
  induction vs as [|v vs IH]; intros [|s ss] vs' ss' L; try discriminate; [reflexivity|]. cbn [app part]. rewrite IH by (injection L as L; exact L). lia.
Qed.
Lemma part_rev sym vs : forall ss, List.length vs = List.length ss -> part sym (rev vs) (rev ss) = part sym vs ss.
Proof.
  induction vs as [|v vs IH]; intros [|s ss] L; try discriminate; [reflexivity|]. injection L as L. cbn [rev].
  rewrite part_app by (rewrite !rev_length; exact L). rewrite IH by exact L. cbn [part]. lia.
Qed.
Lemma part_le sym vs : forall ss ss', Forall2 Z.le ss ss' -> part sym vs ss <= part sym vs ss'.
Proof.
  induction vs as [|v vs IH]; intros ss ss' F; [destruct ss, ss'; cbn; lia|]. inversion F as [|s s' r r' L F']; subst; [cbn; lia|].
  cbn [part]. specialize (IH _ _ F'). destruct (sym_dec _ _); lia.
Qed.
Lemma part_same sym vs ws : Forall2 same_definition vs ws -> forall ss, part sym ws ss = part sym vs ss.
Proof.
  induction 1 as [|v w vs ws D _ IH]; intros [|s ss]; try reflexivity. cbn [part]. rewrite IH. destruct D as (_ & -> & _). reflexivity.
Qed.
Lemma part_plus sym vs : forall ss ds, List.length ss = List.length ds ->
  part sym vs (map (fun x => fst x + snd x) (combine ss ds)) = part sym vs ss + part sym vs ds.
Proof.
  induction vs as [|v vs IH]; intros [|s ss] [|d ds] L; try discriminate; try reflexivity. cbn [combine map part fst snd].
  rewrite IH by (injection L as L; exact L). destruct (sym_dec _ _); lia.
Qed.

(** ** What is available *)
Lemma available_exact n vs : 0 <= n -> forall ss, Forall2 (has n) vs ss -> forall p sym z m, holds p sym z -> Z.abs z <= m ->
  m + n * Z.of_nat (List.length vs) <= 2 ^ 53 ->
  holds (fold_left (fun p v => pool_minus (pool_minus p (v_next v)) (v_now v)) vs p) sym (z - part sym vs ss).
Proof.
  intro N. induction vs as [|v vs IH]; intros ss S p sym z m H L B; inversion S as [|? s ? ss' (C & x & y & X & Y & E & K) S']; subst.
  - cbn. rewrite Z.sub_0_r. exact H.
  - cbn [List.length fold_left part] in *. rewrite Nat2Z.inj_succ in *. assert (0 <= n * Z.of_nat (List.length vs)) by nia.
    destruct C as [C1 C2].
    pose proof (holds_add p (amount_neg (v_next v)) sym z (- y) H (fneg_int _ _ Y) ltac:(lia)) as H1.
    change (symbol (amount_neg (v_next v))) with (symbol (v_next v)) in H1. rewrite C1 in H1.
    assert (holds (pool_minus (pool_minus p (v_next v)) (v_now v)) sym (if sym_dec (symbol (v_amount v)) sym then z - (x + y) else z)) as H2.
    { destruct (sym_dec (symbol (v_amount v)) sym) as [Q|Q].
      - pose proof (holds_add _ (amount_neg (v_now v)) sym _ (- x) H1 (fneg_int _ _ X) ltac:(lia)) as H2.
        change (symbol (amount_neg (v_now v))) with (symbol (v_now v)) in H2. rewrite C2 in H2.
        destruct (sym_dec (symbol (v_amount v)) sym); [|contradiction]. replace (z - (x + y)) with (z + - y + - x) by lia. exact H2.
      - pose proof (holds_add _ (amount_neg (v_now v)) sym _ (- x) H1 (fneg_int _ _ X) ltac:(lia)) as H2.
        change (symbol (amount_neg (v_now v))) with (symbol (v_now v)) in H2. rewrite C2 in H2.
        destruct (sym_dec (symbol (v_amount v)) sym); [contradiction|]. exact H2. }
    specialize (IH ss' S' _ sym _ (m + n) H2). destruct (sym_dec (symbol (v_amount v)) sym).
    + replace (z - (x + y + part sym vs ss')) with (z - (x + y) - part sym vs ss') by lia. apply IH; lia.
    + rewrite Z.add_0_l. apply IH; lia.
Qed.

(** ** Filling *)
Lemma fillings_left today p vs ps q : fillings today p vs ps q -> forall zs, fills ps zs -> forall sym z m, holds p sym z -> Z.abs z <= m ->
  m + size zs <= 2 ^ 53 -> holds q sym (z - part sym vs zs) /\ 0 <= part sym vs zs.
Proof.
  induction 1 as [p|p v a vs ps q E _ IH]; intros zs F sym z m H L B; inversion F as [|? y ? zs' (ep & Q & Y & P) F']; subst.
  - cbn. rewrite Z.sub_0_r. split; [exact H|lia].
  - injection Q as <-. cbn [ep_amount] in Y. cbn [part]. rewrite size_cons in B. pose proof (size_nonneg zs').
    destruct (filling_amount_safe _ _ _ _ E) as (_ & _ & Sa).
    pose proof (holds_sub p a sym z y H Y ltac:(lia)) as H1. rewrite Sa in H1.
    specialize (IH zs' F' sym _ (m + Z.abs y) H1). destruct (sym_dec (symbol (v_amount v)) sym).
    + destruct IH as [K G]; [lia|lia|]. replace (z - (y + part sym vs zs')) with (z - y - part sym vs zs') by lia. split; [exact K|lia].
    + rewrite Z.add_0_l. apply IH; lia.
Qed.
Lemma fill_less today v av a av' a' n t x x' z z' : filling_amount today v av = Ok a -> filling_amount today v av' = Ok a' ->
  v_funding v <> Conservative -> saved v n -> is_int (mag (v_amount v)) t -> Z.abs t + n <= 2 ^ 53 ->
  is_int (mag av) x -> is_int (mag av') x' -> x' <= x -> is_int (mag a) z -> is_int (mag a') z' -> z' <= z.
Proof.
  intros H H' C (m & y & N & Y & L) T B X X' Lx Z Z'. unfold filling_amount in H, H'.
  destruct (negb _) in H; [discriminate|]. destruct (negb _) in H'; [discriminate|].
  destruct (env_next_due today v) as [[due|]| | |]; try discriminate; cbn [bind] in H, H'.
  2: { injection H as <-. injection H' as <-. cbn [mag] in *. rewrite (int_unique _ _ _ Z Z'). lia. }
  destruct (remaining_next v) as [rem| | |] eqn:R; try discriminate. cbn [bind] in H, H'.
  unfold remaining_next, amount_sub, amount_add in R. destruct (ostr_eqb _ _) in R; [|discriminate]. injection R as <-.
  destruct (date_eqb _ _). { injection H as <-. injection H' as <-. cbn [mag] in *. rewrite (int_unique _ _ _ Z Z'). lia. }
  destruct (v_funding v); [|congruence|].
  { injection H as <-. injection H' as <-. cbn [mag] in *. rewrite (int_unique _ _ _ Z Z'). lia. }
  injection H as <-. injection H' as <-. cbn [mag] in *.
  assert (forall av x, is_int (mag av) x -> is_int (fmax (fmax (fmin (fmin (mag (v_amount v)) (mag av)) (fadd (mag (v_amount v)) (fneg (mag (v_next v))))) (fneg (total_mag v))) fzero)
    (Z.max (Z.max (Z.min (Z.min t x) (t + - y)) (- (m + y))) 0)) as K.
  { clear - N Y T L B. intros av x X. apply fmax_int; [|exact fzero_int]. apply fmax_int; [|apply fneg_int; unfold total_mag; apply fadd_int; [exact N|exact Y|lia]].
    apply fmin_int; [apply fmin_int; [exact T|exact X]|]. apply fadd_int; [exact T|apply fneg_int, Y|lia]. }
  rewrite (int_unique _ _ _ Z (K av x X)), (int_unique _ _ _ Z' (K av' x' X')). lia.
Qed.
Lemma again_zero today n p vs ps q : fillings today p vs ps q -> forall zs ts m ws p' ps' q', fills ps zs ->
  Forall2 (fun v w => same_definition v w /\ (v_last w = today \/ w = v)) vs ws ->
  (forall ep w, In (EnvPosting ep) ps -> positive (ep_amount ep) -> In w ws -> v_account w = ep_account ep -> v_name w = ep_envelope ep -> v_last w = today) ->
  (forall v, In v vs -> v_funding v <> Conservative /\ saved v n) ->
  Forall2 (fun v t => is_int (mag (v_amount v)) t) vs ts -> 0 <= n -> size ts + n <= 2 ^ 53 ->
  (forall sym, exists z, holds p sym z /\ Z.abs z <= m) -> m + size zs <= 2 ^ 53 ->
  (forall sym, exists z z', holds q sym z /\ holds p' sym z' /\ z' <= z /\ Z.abs z' <= 2 ^ 53) ->
  fillings today p' ws ps' q' ->
  Forall (fun x => exists ep, x = EnvPosting ep /\ is_int (mag (ep_amount ep)) 0) ps'.
Proof.
  induction 1 as [p|p v a vs ps q E Fi IH]; intros zs ts m ws p' ps' q' F D Tc C T N B1 Hp B2 Hq F'.
  { inversion D; subst. inversion F'; subst. constructor. }
  inversion F as [|? z ? zs' (ep & Q & Z & P) F2]; subst. injection Q as <-. cbn [ep_amount] in Z.
  inversion D as [|? w ? ws' (Dw & Lw) D']; subst. inversion T as [|? t ? ts' Tv T']; subst.
  inversion F' as [|? ? a' ? ps2 ? E' F3]; subst. rewrite size_cons in *. pose proof (size_nonneg zs'). pose proof (size_nonneg ts').
  assert (is_int (mag a') 0) as Z'.
  { assert (v_last w = today -> is_int (mag a') 0) as Lt.
    { intro G. rewrite (filling_amount_zero _ _ _ _ E') by auto. exact fzero_int. }
    destruct Lw as [G| ->]; [exact (Lt G)|].
    destruct (Z.eq_dec z 0) as [->|Nz].
    - destruct (C v (or_introl eq_refl)) as [Cv Sv]. destruct (Hp (symbol (v_amount v))) as (x & X & Lx).
      destruct (Hq (symbol (v_amount v))) as (y & x' & Y & X' & Ly & _).
      destruct (fillings_left today p (v :: vs) (EnvPosting (mkEnvPosting (v_account v) (v_name v) a) :: ps) q) with (zs := 0 :: zs') (sym := symbol (v_amount v)) (z := x) (m := m) as [G Gn].
      + constructor; assumption.
      + constructor; [|exact F2]. eexists. split; [reflexivity|]. split; [exact Z|lia].
      + exact X.
      + exact Lx.
      + rewrite size_cons. lia.
      + assert (y <= x) by (rewrite (int_unique _ _ _ Y G); lia).
        destruct (fill_int _ _ _ _ _ _ _ E' Cv Sv X' Tv) as (z' & Z' & Lz'); [lia|].
        assert (z' <= 0) by (apply (fill_less today v _ _ _ _ n t x x' 0 z' E E' Cv Sv Tv); try assumption; lia).
        replace 0 with z' by lia. exact Z'.
    - apply Lt. apply (Tc (mkEnvPosting (v_account v) (v_name v) a) v); try reflexivity; [left; reflexivity| |left; reflexivity].
      unfold positive. cbn [ep_amount]. rewrite (int_less _ _ _ _ fzero_int Z). apply Z.ltb_lt. lia. }
  constructor; [eexists; split; [reflexivity|exact Z']|].
  apply (IH zs' ts' (m + Z.abs z) ws' (pool_sub p' a') ps2 q'); try assumption.
  - intros ep w' I Po Iw. apply Tc; [right; exact I|exact Po|right; exact Iw].
  - intros u Iu. apply C. right. exact Iu.
  - lia.
  - intro sym. destruct (Hp sym) as (x & X & Lx). eexists. split; [apply (holds_sub p a sym x z X Z); lia|]. destruct (sym_dec _ _); lia.
  - lia.
  - intro sym. destruct (Hq sym) as (y & x' & Y & X' & Ly & Bx). exists y, x'. split; [exact Y|]. split; [|split; [exact Ly|exact Bx]].
    pose proof (holds_sub p' a' sym x' 0 X' Z' ltac:(lia)) as K. rewrite Z.sub_0_r in K. destruct (sym_dec _ _); exact K.
Qed.

(** ** One account *)
Lemma choose {A C} (R : A -> C -> Prop) l : (forall x, In x l -> exists y, R x y) -> exists m, Forall2 R l m.
Proof.
  induction l as [|x l IH]; intro H; [exists []; constructor|]. destruct (H x (or_introl eq_refl)) as (y & Y).
  destruct IH as (m & M); [intros z I; apply H; right; exact I|]. exists (y :: m). constructor; assumption.
Qed.
Lemma Forall2_length_eq {A C} (R : A -> C -> Prop) l m : Forall2 R l m -> List.length l = List.length m.
Proof. induction 1; cbn; auto. Qed.
Lemma fillings_aligned today p vs ps q : fillings today p vs ps q ->
  Forall2 (fun v x => exists a, x = EnvPosting (mkEnvPosting (v_account v) (v_name v) a)) vs ps.
Proof. induction 1; constructor; eauto. Qed.
(** [d] is posted to the envelope. *)
Definition gets (m : Z) (ps : list posting) (v : envelope) (d : Z) : Prop :=
  exists ys, Forall2 (fun a y => is_int (mag a) y) (posted_to v ps) ys /\ d = Zsum ys /\ Forall (fun y => 0 <= y) ys /\ size ys <= m.
Lemma gets_least m ps v d a z : gets m ps v d -> In (EnvPosting (mkEnvPosting (v_account v) (v_name v) a)) ps -> is_int (mag a) z -> z <= d.
Proof.
  intros (ys & F & -> & P & _) I Z. apply posted_to_In in I. revert I. induction F as [|b y l ys Y F IH]; intro I; [destruct I|].
  inversion P as [|? ? P1 P2]; subst. rewrite Zsum_cons.
  assert (0 <= Zsum ys) by (clear - P2; induction P2; [easy|rewrite Zsum_cons; lia]).
  destruct I as [->|I]; [rewrite (int_unique _ _ _ Z Y); lia|]. specialize (IH P2 I). lia.
Qed.
Lemma gets_nonneg m ps v d : gets m ps v d -> 0 <= d.
Proof. intros (ys & _ & -> & P & _). induction P; [easy|rewrite Zsum_cons; lia]. Qed.
Lemma fills_below m ps vs : forall ps' zs ds, Forall2 (fun v x => exists a, x = EnvPosting (mkEnvPosting (v_account v) (v_name v) a)) vs ps' ->
  fills ps' zs -> Forall2 (gets m ps) vs ds -> (forall x, In x ps' -> keep_posting x = true -> In x ps) -> Forall2 Z.le zs ds.
Proof.
  induction vs as [|v vs IH]; intros ps' zs ds A F G K; inversion A as [|? x ? ps2 (a & ->) A']; subst;
    inversion F as [|? z ? zs' (ep & Q & Z & P) F']; subst; inversion G as [|? d ? ds' Gd G']; subst; constructor.
  - injection Q as <-. cbn [ep_amount] in Z. destruct (Z.eq_dec z 0) as [->|Nz]; [exact (gets_nonneg _ _ _ _ Gd)|].
    apply (gets_least _ _ _ _ _ _ Gd) with (2 := Z). apply K; [left; reflexivity|]. cbn [keep_posting get_amount ep_amount].
    apply negb_true_iff, not_true_iff_false. intro H. apply feqb_R in H as (_ & _ & H). destruct Z as [Fz Rz].
    rewrite fval_zero, (fval_fin _ Fz), Rz in H. apply eq_IZR in H. contradiction.
  - apply (IH ps2); try assumption. intros x I. apply K. right. exact I.
Qed.
Lemma posted_gets v e ps ys : amounts e ps ys -> Forall (fun y => 0 <= y) ys -> exists d, gets (size ys) ps v d.
Proof.
  intros A P. enough (exists zs, Forall2 (fun a y => is_int (mag a) y) (posted_to v ps) zs /\ Forall (fun y => 0 <= y) zs /\ size zs <= size ys) as (zs & F & Pz & L).
  { exists (Zsum zs), zs. auto. }
  induction A as [|p z ps zs (a & W & I) _ IH]; [exists []; split; [constructor|split; [constructor|easy]]|]. inversion P as [|? ? P1 P2]; subst.
  destruct (IH P2) as (ws & F & Pw & L). rewrite size_cons. unfold posted_to in *. cbn [flat_map].
  destruct p as [c|ep]; [exists ws; split; [exact F|split; [exact Pw|lia]]|].
  destruct (str_dec _ _); [|exists ws; split; [exact F|split; [exact Pw|lia]]]. destruct (str_dec _ _); [|exists ws; split; [exact F|split; [exact Pw|lia]]].
  exists (z :: ws). rewrite size_cons. split; [|split; [constructor; assumption|lia]]. constructor; [|exact F].
  destruct W as [W|[W _]]; cbn in W; [injection W as <-; exact I|discriminate].
Qed.
Lemma has_saved n v s : has n v s -> saved v n.
Proof. intros (_ & x & y & X & Y & _ & L). exists x, y. auto. Qed.
Lemma saved_has n v : in_currency v -> saved v n -> exists s, has n v s.
Proof. intros C (x & y & X & Y & L). exists (x + y). split; [exact C|]. exists x, y. auto. Qed.
Lemma has_more n n' v s : has n v s -> n <= n' -> has n' v s.
Proof. intros (C & x & y & X & Y & E & L) H. split; [exact C|]. exists x, y. repeat split; try apply X; try apply Y; try exact E. lia. Qed.
Lemma process_all today a e b : acc_process today a e = Ok b -> Forall2 (fun v w => env_process today v e = Ok w) (all_envelopes a) (all_envelopes b).
Proof.
  unfold acc_process. intro H. apply bind_Ok in H as (ex & E1 & H). apply bind_Ok in H as (go & E2 & H). apply bind_Ok in H as (r & _ & H). injection H as <-.
  apply map_res_Ok in E1, E2. apply Forall2_app; assumption.
Qed.
Lemma only_moves e name ps ys : fills ps ys -> filter (to_classic name) (map (pair e) ps) = [].
Proof. induction 1 as [|p z ps zs (ep & -> & _) _ IH]; [reflexivity|]. cbn. exact IH. Qed.
Lemma fills_amounts e ps zs : fills ps zs -> amounts e ps zs.
Proof. induction 1 as [|p z ps zs (ep & -> & Z & _) _ IH]; constructor; [|exact IH]. exists (ep_amount ep). split; [left; reflexivity|exact Z]. Qed.

Lemma account_again today n m k a b ps ys ps1 ps2 us : 0 <= n -> 0 <= m -> kept a n -> sound a -> fills ps ys -> ps <> [] -> size ys <= m ->
  k = Z.of_nat (List.length (all_envelopes a)) -> n + (n + m) * k <= 2 ^ 53 -> n + n * k + m <= 2 ^ 53 ->
  Forall2 (fun v t => is_int (mag (v_amount v)) t) (all_envelopes a) us -> size us + n <= 2 ^ 53 ->
  (forall v, In v (all_envelopes a) -> v_funding v <> Conservative) ->
  filling_postings today a = Ok ps1 -> (exists zs1, fills ps1 zs1 /\ size zs1 <= m) -> (forall x, In x ps1 -> keep_posting x = true -> In x ps) ->
  acc_process today a (fill_entry today ps) = Ok b -> filling_postings today b = Ok ps2 ->
  Forall (fun x => exists ep, x = EnvPosting ep /\ is_int (mag (ep_amount ep)) 0) ps2.
Proof.
  intros N M [Re Sa] So Fp Ne Ly K B1 B2 U Bu C F1 (zs1 & Z1 & L1) In1 P F2.
  set (e := fill_entry today ps) in *. assert (e_postings e = ps) as Ep by reflexivity. assert (e_date e = today) as Ed by reflexivity. clearbody e.
  assert (manual e) as Me.
  { clear - Fp Ne Ep. destruct Fp as [|p z l l' (ep & -> & _) _]; [contradiction|]. exists ep. rewrite Ep. left. reflexivity. }
  apply filling_postings_iff in F1 as (q & F1). apply filling_postings_iff in F2 as (q2 & F2).
  pose proof (process_all _ _ _ _ P) as Pr.
  assert (exists ss, Forall2 (has n) (all_envelopes a) ss) as (ss & Ss).
  { apply choose. intros v I. apply saved_has; [exact (proj2 (proj1 So v I))|exact (Sa v I)]. }
  assert (Forall (fun y => 0 <= y) ys) as Py by (clear - Fp; induction Fp as [|p z l l' (_ & _ & _ & Q) _ IH]; constructor; assumption).
  assert (exists ds, Forall2 (gets m ps) (all_envelopes a) ds) as (ds & Ds).
  { apply choose. intros v I. destruct (posted_gets v e ps ys (fills_amounts _ _ _ Fp) Py) as (d & zs & A1 & A2 & A3 & A4).
    exists d, zs. split; [exact A1|]. split; [exact A2|]. split; [exact A3|lia]. }
  assert (Forall2 (has (n + m)) (all_envelopes b) (map (fun x => fst x + snd x) (combine ss ds))) as Sb.
  { assert (n + m <= 2 ^ 53 \/ all_envelopes a = []) as [Bnm|Em].
    { destruct (all_envelopes a); [right; reflexivity|left]. cbn [List.length] in K. rewrite Nat2Z.inj_succ in K. nia. }
    - clear - Pr Ss Ds Me Ep Bnm. revert ss ds Ss Ds. induction Pr as [|v w vs ws Pv _ IH]; intros ss ds Ss Ds.
      + inversion Ss; subst. constructor.
      + inversion Ss as [|? s ? ss' Hs Ss']; subst. inversion Ds as [|? d ? ds' (zs & Fz & -> & _ & Lz) Ds']; subst. cbn [combine map fst snd].
        constructor; [|apply IH; assumption]. apply (env_process_manual _ _ _ _ Me) in Pv.
        apply (has_more (n + size zs)); [|lia]. apply (moved_all_has _ _ _ _ _ Pv); [exact Fz|exact Hs|lia].
    - rewrite Em in *. inversion Pr; subst. inversion Ss; subst. constructor. }
  assert (Forall2 same_definition (all_envelopes a) (all_envelopes b)) as Sd.
  { clear - Pr. induction Pr as [|v w vs ws Pv _ IH]; constructor; [exact (proj1 (env_process_inv _ _ _ _ Pv))|exact IH]. }
  assert (a_real b = a_real a) as Rb.
  { destruct (acc_process_real _ _ _ _ P) as (xs & W & ->). rewrite Ep, (only_moves e _ _ _ Fp) in W. inversion W; subst. reflexivity. }
  assert (Forall2 Z.le zs1 (rev ds)) as Le.
  { apply (fills_below m ps (rev (all_envelopes a)) ps1); [exact (fillings_aligned _ _ _ _ _ F1)|exact Z1|apply Forall2_rev, Ds|exact In1]. }
  assert (List.length (all_envelopes a) = List.length ds) as Ld by exact (Forall2_length_eq _ _ _ Ds).
  assert (List.length ss = List.length ds) as Ls by (rewrite <- Ld; symmetry; exact (Forall2_length_eq _ _ _ Ss)).
  assert (List.length (all_envelopes b) = List.length (all_envelopes a)) as Lb by (symmetry; exact (Forall2_length_eq _ _ _ Sd)).
  assert (0 <= k) as Kn by lia.
  assert (forall sym, exists z, holds (available_value a) sym z /\ Z.abs z <= n + n * k) as Av.
  { rewrite K. apply available_int; [exact N|exact Sa|exact Re|nia]. }
  apply (again_zero today n _ _ _ _ F1 zs1 (rev us) (n + n * k) (rev (all_envelopes b)) (available_value b) ps2 q2); try assumption.
  - apply Forall2_rev. clear - Pr Me Ep Ed. induction Pr as [|v w vs ws Pv _ IH]; constructor; [|exact IH].
    split; [exact (proj1 (env_process_inv _ _ _ _ Pv))|]. apply (env_process_manual _ _ _ _ Me) in Pv. rewrite Ep, Ed in Pv.
    destruct (posted_to v ps) as [|x l] eqn:E; [right; inversion Pv; reflexivity|left].
    apply (moved_all_last _ _ _ _ _ Pv). discriminate.
  - intros ep w I Po Iw Ea En. apply in_rev in Iw. destruct (acc_process_envelopes _ _ _ _ _ P Iw) as (u & _ & Hu).
    apply (env_process_manual _ _ _ _ Me) in Hu. rewrite Ed in Hu. apply (moved_all_last _ _ _ _ _ Hu).
    assert (D := moved_all_same _ _ _ _ _ Hu). destruct D as (Dn & _ & _ & _ & _ & _ & _ & Da).
    assert (In (ep_amount ep) (posted_to u ps)) as Kp.
    { apply posted_to_In. rewrite <- Da, <- Dn, Ea, En. replace (mkEnvPosting _ _ _) with ep by (destruct ep; reflexivity).
      apply In1; [exact I|]. cbn [keep_posting get_amount]. apply negb_true_iff, not_true_iff_false. intro H. apply feqb_R in H as (_ & _ & H).
      apply fltb_R in Po as (_ & _ & Po). lra. }
    rewrite Ep. destruct (posted_to u ps); [destruct Kp|discriminate].
  - intros v I. apply in_rev in I. split; [exact (C v I)|exact (Sa v I)].
  - apply Forall2_rev, U.
  - rewrite size_rev. exact Bu.
  - lia.
  - intro sym. destruct (Re sym) as (r & R & Lr).
    assert (holds (available_value a) sym (r - part sym (all_envelopes a) ss)) as Ha.
    { apply (available_exact n _ N _ Ss) with (m := n); [exact R|exact Lr|nia]. }
    assert (holds (available_value b) sym (r - part sym (all_envelopes b) (map (fun x => fst x + snd x) (combine ss ds)))) as Hb.
    { unfold available_value. rewrite Rb. apply (available_exact (n + m) _ ltac:(lia) _ Sb) with (m := n); [exact R|exact Lr|]. rewrite Lb, <- K. exact B1. }
    destruct (Av sym) as (z & Z & Lz). rewrite (int_unique _ _ _ Z Ha) in Lz.
    destruct (fillings_left _ _ _ _ _ F1 zs1 Z1 sym _ (n + n * k) Ha Lz) as [Hq _]; [lia|].
    rewrite (part_same sym _ _ Sd), part_plus in Hb by exact Ls.
    eexists. eexists. split; [exact Hq|]. split; [exact Hb|].
    pose proof (part_le sym (rev (all_envelopes a)) _ _ Le) as Lp. rewrite part_rev in Lp by exact Ld. split; [lia|].
    destruct (available_int (n + m) (all_envelopes b)) with (p := a_real b) (m := n) (sym := sym) as (z' & Z' & Lz').
    + lia.
    + intros v I. destruct (Forall2_In_l _ _ _ _ Sb I) as (s & _ & H). exact (has_saved _ _ _ H).
    + rewrite Rb. exact Re.
    + rewrite Lb, <- K. exact B1.
    + rewrite Lb, <- K in Lz'. rewrite <- (int_unique _ _ _ Z' (eq_ind_r (fun x => is_int (mag (pool_only (available_value b) sym)) x) Hb eq_refl)). lia.
Qed.

(** ** All accounts *)
Lemma fill_again today l es m ps l' : built today l es -> (forall k a, In (k, a) (l_accounts l) -> sound a) -> year today < max_year ->
  whole_ledger m l -> m <= 90000000 -> fill_postings today l = Ok ps -> ps <> [] -> add_entry today l (fill_entry today ps) = Ok l' ->
  fill_postings today l' = Ok [].
Proof.
  intros B So Y W M F Ne A. destruct (ledger_spare _ _ _ _ B W) as (n & k & ts & S); [lia|].
  destruct (filled_all today l n k m ts ps S ltac:(lia) F) as (ys & Fy & _ & Ly).
  pose proof S as (N & K & T & L & C & Kp). pose proof (size_nonneg ts).
  assert (0 <= m) as Mn by nia. assert (size ys <= m) as Lm by nia.
  pose proof F as F0. unfold fill_postings in F. apply bind_Ok in F as (pss & G & F). injection F as Fps. apply map_res_Ok in G.
  assert (forall kb, In kb (l_accounts l') -> exists ps2, filling_postings today (snd kb) = Ok ps2
    /\ Forall (fun x => exists ep, x = EnvPosting ep /\ is_int (mag (ep_amount ep)) 0) ps2) as Q.
  { intros [key b] I. destruct (Forall2_In_r _ _ _ _ (add_entry_accounts _ _ _ _ A) I) as ([key' a] & Ia & _ & P). cbn [snd] in *.
    assert (sound b) as Sb by exact (acc_process_sound _ _ _ _ P (So key' a Ia)).
    destruct (filling_postings_total today b Y) as (ps2 & E2); [intros v Iv; exact (proj2 (proj1 Sb v Iv))|].
    exists ps2. split; [exact E2|]. destruct (Forall2_In_l _ _ _ _ G Ia) as (ps1 & I1 & E1). cbn [snd] in E1.
    destruct (size_part _ _ key' a T Ia) as (us & U & Lu).
    assert (Z.of_nat (List.length (all_envelopes a)) <= k) as Lk by (rewrite K; apply inj_le, (length_part _ key'), Ia).
    pose proof (Zle_0_nat (List.length (all_envelopes a))).
    destruct (filled_account today l n k m ts key' a ps1 S ltac:(lia) Ia E1 us U Lu) as (zs1 & Z1 & L1).
    assert (n + (n + m) * Z.of_nat (List.length (all_envelopes a)) <= 2 ^ 53) as Bd.
    { assert (k <= m) by nia. assert (n * k <= m) by nia. assert (n <= m) by nia.
      assert ((n + m) * Z.of_nat (List.length (all_envelopes a)) <= (n + m) * k) by nia. assert (m * k <= 90000000 * 90000000) by nia. lia. }
    apply (account_again today n m (Z.of_nat (List.length (all_envelopes a))) a b ps ys ps1 ps2 us); try assumption; try reflexivity.
    - exact (Kp key' a Ia).
    - exact (So key' a Ia).
    - nia.
    - nia.
    - intros v Iv. apply C. unfold envelopes_of. apply in_flat_map. exists (key', a). split; assumption.
    - exists zs1. split; [exact Z1|]. nia.
    - intros x Ix Kx. rewrite <- Fps. apply filter_In. split; [|exact Kx]. apply in_concat. exists ps1. split; assumption. }
  unfold fill_postings. clear - Q. induction (l_accounts l') as [|kb m IH]; [reflexivity|]. cbn [map_res].
  destruct (Q kb (or_introl eq_refl)) as (ps2 & -> & Z). cbn [bind].
  assert (bind (map_res (fun ka => filling_postings today (snd ka)) m) (fun pss => Ok (filter keep_posting (List.concat pss))) = Ok []) as E.
  { apply IH. intros x I. apply Q. right. exact I. }
  destruct (map_res (fun ka => filling_postings today (snd ka)) m) as [pss| | |]; try discriminate. cbn [bind List.concat] in *. injection E as E.
  rewrite filter_app, E, app_nil_r. f_equal. clear - Z. induction Z as [|x ps (ep & -> & F & R) _ IH]; [reflexivity|]. cbn [filter keep_posting get_amount].
  assert (feqb (mag (ep_amount ep)) fzero = true) as ->; [|exact IH]. apply feqb_R. rewrite fval_zero, (fval_fin _ F), R.
  split; [apply ffin_not_nan, F|]. split; reflexivity.
Qed.
