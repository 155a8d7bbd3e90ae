(** C139: other names in a typed journal. *)
From Coq Require Import ZArith NArith List Bool Ascii String Reals Lia Lra Permutation Sorted.
From Verif Require Import Base Str F64 Date World Amount Posting Entry Envelope Account Register Ledger Importer Cli
  SpecDate SpecEntry SpecEnvelope SpecLedger SpecReport SpecAmount SpecTotals SpecCli SpecRun SpecTyped SpecZero SpecSame SpecAdded SpecRenamed
  StrFacts LedgerFacts OrderFacts TypedFacts PropertiesLedger PropertiesTotals PropertiesCli PropertiesRun PropertiesFrame PropertiesReport PropertiesTyped PropertiesZero PropertiesSame PropertiesAdded.
Import ListNotations.
Local Open Scope Z_scope.

Section Renaming.
Context (f : str -> str) (g : option str -> option str).
Context (If : one_to_one f) (Ig : one_to_one g) (Gn : g None = None).
Local Notation rp := (renamed_posting f g).
Local Notation re := (renamed_entry f g).
Local Definition rx (x : Z * option str) : Z * option str := (fst x, g (snd x)).

Lemma r_amount p : t_amount (rp p) = option_map rx (t_amount p).
Proof. unfold renamed_posting. cbn. destruct (t_amount p) as [[z s]|]; reflexivity. Qed.
Lemma r_given ps : given (map rp ps) = map rx (given ps).
Proof. unfold given. induction ps as [|p ps IH]; [reflexivity|]. cbn [map flat_map]. rewrite IH, r_amount. destruct (t_amount p); reflexivity. Qed.
Lemma r_fst l : map fst (map rx l) = map fst l.
Proof. rewrite map_map. reflexivity. Qed.
Lemma r_moved ps p : moved (map rp ps) (rp p) = rx (moved ps p).
Proof.
  unfold moved. rewrite r_amount, r_given, r_fst. destruct (t_amount p) as [x|]; [reflexivity|]. cbn [option_map]. unfold rx. cbn [fst snd]. f_equal.
  destruct (given ps) as [|y l]; [symmetry; exact Gn|reflexivity].
Qed.
Lemma r_basis ps p : basis (map rp ps) (rp p) = basis ps p.
Proof. unfold basis. rewrite r_amount, r_given, r_fst. destruct (t_amount p); reflexivity. Qed.
Lemma r_meant name sym ps p : meant (f name) (g sym) (map rp ps) (rp p) = meant name sym ps p.
Proof.
  unfold meant. rewrite r_moved. cbn [rx snd]. change (t_account (rp p)) with (f (t_account p)).
  destruct (str_dec (f (t_account p)) (f name)) as [E|E], (str_dec (t_account p) name) as [E'|E']; try (apply If in E; contradiction); try (rewrite E' in E; contradiction); [|reflexivity].
  unfold rx. cbn [snd]. destruct (sym_dec (g (snd (moved ps p))) (g sym)) as [H|H], (sym_dec (snd (moved ps p)) sym) as [H'|H']; try reflexivity; [apply Ig in H; contradiction|rewrite H' in H; contradiction].
Qed.
Lemma r_filter name sym ps l : filter (meant (f name) (g sym) (map rp ps)) (map rp l) = map rp (filter (meant name sym ps) l).
Proof. induction l as [|p l IH]; [reflexivity|]. cbn [map filter]. rewrite r_meant, IH. destruct (meant name sym ps p); reflexivity. Qed.
Lemma r_entry {A} (h : list typed -> typed -> list A) name sym e : (forall ps p, h (map rp ps) (rp p) = h ps p) ->
  in_entry h (f name) (g sym) (re e) = in_entry h name sym e.
Proof.
  intro H. unfold in_entry, renamed_entry. cbn [snd]. rewrite r_filter. induction (filter _ _) as [|p l IH]; [reflexivity|]. cbn [map flat_map]. rewrite IH, H. reflexivity.
Qed.
Lemma r_moves es name sym : moves (map re es) (f name) (g sym) = moves es name sym.
Proof.
  unfold moves. induction es as [|e es IH]; [reflexivity|]. cbn [map flat_map]. rewrite IH, r_entry; [reflexivity|]. intros. rewrite r_moved. reflexivity.
Qed.
Lemma r_behind es name sym : behind (map re es) (f name) (g sym) = behind es name sym.
Proof. unfold behind. induction es as [|e es IH]; [reflexivity|]. cbn [map flat_map]. rewrite IH, r_entry; [reflexivity|]. intros. apply r_basis. Qed.
(** Numbers are only behind names that occur. *)
Lemma behind_known es name sym : behind (map re es) name sym <> [] -> exists n s, name = f n /\ sym = g s.
Proof.
  intro H. unfold behind in H. destruct (flat_map _ (map re es)) as [|z l] eqn:E; [contradiction|].
  assert (In z (flat_map (in_entry basis name sym) (map re es))) as I by (rewrite E; left; reflexivity).
  apply in_flat_map in I as (e' & Ie & I). apply in_map_iff in Ie as (e & <- & _). apply in_flat_map in I as (q & Iq & _). apply filter_In in Iq as [Iq Q].
  cbn [renamed_entry snd] in Iq, Q. apply in_map_iff in Iq as (p & <- & _). unfold meant in Q. rewrite r_moved in Q. exists (t_account p), (snd (moved (snd e) p)).
  destruct (str_dec (t_account (rp p)) name) as [<-|]; [|discriminate Q]. destruct (sym_dec (snd (rx (moved (snd e) p))) sym) as [<-|]; [|discriminate Q]. split; reflexivity.
Qed.
Lemma r_modest es : modest_sums es -> modest_sums (map re es).
Proof.
  intros M name sym. cbv zeta. destruct (behind (map re es) name sym) as [|z l] eqn:E; [left; vm_compute; discriminate|].
  destruct (behind_known es name sym) as (n & s & -> & ->); [rewrite E; discriminate|]. rewrite <- E, r_behind. apply M.
Qed.
Lemma r_opened es : opened es -> opened (map re es).
Proof.
  intros O e' q Ie Iq A. apply in_map_iff in Ie as (e & <- & Ie). cbn [renamed_entry snd] in Iq. apply in_map_iff in Iq as (p & <- & Ip).
  assert (t_amount p = None) as A' by (rewrite r_amount in A; destruct (t_amount p); [discriminate|reflexivity]).
  destruct (O e p Ie Ip A') as (u & v & Iu & Iv & Ac & N & Ea). exists (re u), (rp v). split; [apply in_map, Iu|]. split; [apply in_map, Iv|].
  split; [change (f (t_account v) = f (t_account p)); rewrite Ac; reflexivity|]. split; [|exact Ea]. rewrite r_amount. destruct (t_amount v); [discriminate|contradiction].
Qed.
Lemma r_named es name : named_in (map re es) name <-> exists n, named_in es n /\ name = f n.
Proof.
  split.
  - intros (e' & q & Ie & Iq & <-). apply in_map_iff in Ie as (e & <- & Ie). cbn [renamed_entry snd] in Iq. apply in_map_iff in Iq as (p & <- & Ip).
    exists (t_account p). split; [exists e, p; split; [exact Ie|split; [exact Ip|reflexivity]]|reflexivity].
  - intros (n & (e & p & Ie & Ip & <-) & ->). exists (re e), (rp p). split; [apply in_map, Ie|]. split; [apply in_map, Ip|reflexivity].
Qed.
End Renaming.

(** The report has the same amounts under the new names. *)
Theorem C139_names : forall x args fl w w' p text es text' es' f g,
  one_to_one f -> one_to_one g -> g None = None ->
  parse_args args = Some (Ok fl) -> f_cmd fl = Balance -> chosen x fl p -> (0 < x_fuel x)%nat -> components p <> [] ->
  files w (resolve w p) = Some text -> typed_journal text es -> opened es -> modest_sums es ->
  files w' (resolve w' p) = Some text' -> typed_journal text' es' -> Permutation es' (map (renamed_entry f g) es) ->
  exists rows rows', report (o_out (main x args w)) rows /\ report (o_out (main x args w')) rows'
  /\ (forall name, In name (map fst rows') <-> exists n, In n (map fst rows) /\ name = f n)
  /\ forall name sym, amount_in rows' (f name) (g sym) = amount_in rows name sym.
Proof.
  intros x args fl w w' p text es text' es' f g If Ig Gn Pa Fc Ch Fu Np Fi T O M Fi' T' P.
  assert (opened es') as O' by (apply (permuted_opened _ _ (Permutation_sym P)), r_opened, O).
  assert (modest_sums es') as M' by (apply (permuted_modest _ _ (Permutation_sym P)), r_modest; assumption).
  destruct (journal_report x args fl w p text es Pa Fc Ch Fu Np Fi T O M) as (rows & R & N & A).
  destruct (journal_report x args fl w' p text' es' Pa Fc Ch Fu Np Fi' T' O' M') as (rows' & R' & N' & A').
  destruct (permuted_totals _ _ P) as [Pn Pt]. exists rows, rows'. split; [exact R|]. split; [exact R'|]. split.
  - intro name. rewrite N', Pn, r_named. split; intros (n & I & E); exists n; (split; [|exact E]); apply N, I.
  - intros name sym. rewrite A, A', (proj2 (Pt _ _)), r_moves by assumption. reflexivity.
Qed.
Print Assumptions C139_names.

(** Every account gets a prefix, and the dollar the sign U$. *)
Definition mine : str -> str := app (lit "my:").
Definition marked : option str -> option str := option_map (app (lit "U")).
Definition dollar_text : str := text ["account assets:cash"; "account equity"; "2024/02/01 * coins"; "  assets:cash  $7"; "  equity  $-7"; "2024/02/02 * notes"; "  assets:cash  100.5"; "  equity"]%string.
Definition marked_text : str := text ["account my:equity"; "account my:assets:cash"; "2024/02/01 * coins"; "  my:assets:cash  U$7"; "  my:equity  U$-7"; "2024/02/02 * notes"; "  my:assets:cash  100.5"; "  my:equity"]%string.
Example C139_case : one_to_one mine /\ one_to_one marked /\ marked None = None
  /\ map (renamed_entry mine marked) [coins_entry] = [(mkDate 2024 2 1 eq_refl, [mkTyped (lit "my:assets:cash") (Some (700000000, Some (lit "U$"))); mkTyped (lit "my:equity") (Some (-700000000, Some (lit "U$")))])]
  /\ shown_by ["b"]%string (world_of [(j, dollar_text)] [[]] []) = map lit
      ["assets:cash                            "; "	$ 7"; "	 100.5"; "equity                                 "; "	$-7"; "	-100.5"]%string
  /\ shown_by ["b"]%string (world_of [(j, marked_text)] [[]] []) = map lit
      ["my:assets:cash                         "; "	U$ 7"; "	 100.5"; "my:equity                              "; "	U$-7"; "	-100.5"]%string.
Proof.
  split; [intros a b E; exact (app_inv_head _ _ _ E)|]. split; [intros [a|] [b|] E; try discriminate E; [injection E as E; rewrite E|]; reflexivity|].
  repeat split; vm_compute; reflexivity.
Qed.
