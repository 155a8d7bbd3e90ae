(** Claim about layout: white space, blank lines and comments between the words
    of entries do not matter, nor the indentation of definitions (C118). *)
From Coq Require Import ZArith NArith List Bool String.
From Verif Require Import Base Str F64 Date World Amount Posting Entry Envelope Account Register Ledger Importer Cli
  SpecText SpecLedger SpecImport SpecCrash SpecWords SpecLayout
  StrFacts EntryFacts WordsFacts LayoutFacts TwinFacts PropertiesLedger PropertiesCli PropertiesWords.
Import ListNotations.

(** ** C118 *)
Theorem C118_loading : forall fuel today p w v, relaid_world w v ->
  together (fun s t => fst s = fst t /\ relaid_world (snd s) (snd t)) (from_file fuel today p w) (from_file fuel today p v).
Proof. apply relaid_from_file. Qed.
Print Assumptions C118_loading.

Lemma ledgers_eq l m : ledgers eq l m -> l = m.
Proof.
  intros (P & F & A & C & E). destruct l as [p es f a c], m as [p' es' f' a' c']; cbn in *. subst. replace es' with es; [reflexivity|].
  induction E; congruence.
Qed.
Lemma ledgers_refl l : ledgers eq l l.
Proof. repeat split. induction (l_entries l); constructor; auto. Qed.
Lemma relaid_twin w v : relaid_world w v -> Twin w v.
Proof.
  intros (_ & C & F). split; [exact C|]. intro p. specialize (F p). destruct (files w p), (files v p); try contradiction; split; intro E; try discriminate; reflexivity.
Qed.

(** The same output, the same exit status, and the same text is appended to the
    journal; importing reads the same files. *)
Theorem C118_run : forall x args w v, relaid_world w v ->
  (forall f j c, parse_args args = Some (Ok f) -> f_cmd f = Import -> journal_path x f = Some j -> f_csv f = Some c ->
     same_sources w v j c (rules_for f c)) ->
  o_out (main x args w) = o_out (main x args v)
  /\ exit_status (main x args w) = exit_status (main x args v)
  /\ same_additions w (o_world (main x args w)) v (o_world (main x args v)).
Proof.
  intros x args w v W S. assert (Z : same_additions w w v v) by (apply same_none; reflexivity). unfold main.
  destruct (parse_args args) as [[f| | |]|]; try (cbn; auto; fail).
  apply (twin_execute eq) with (WR := relaid_world) (Reg := True); auto.
  - intros today l m e L. apply ledgers_eq in L as ->. destruct (add_entry today m e); cbn; auto. apply ledgers_refl.
  - apply relaid_twin.
  - intros fuel today p w' v' W'. eapply together_mono; [|apply relaid_from_file, W'].
    intros [l y] [m z] [E R]. cbn [fst snd] in *. subst m. split; [apply ledgers_refl|exact R].
  - intros l m L. apply ledgers_eq in L as ->. apply together_eq.
  - intros _ tty l m b e a L. apply ledgers_eq in L as ->. reflexivity.
Qed.
Print Assumptions C118_run.

Definition neat : list string :=
  ["account assets:a"; "  goal food by 2024/07/20"; "    amount $30"; "    funding aggressive"; "account b"; "currency $";
   "2024/03/01 * Salary [ACME]"; "  assets:a  $100"; "  b"]%string.
Definition loose : list string :=
  ["; all my money"; ""; "account    assets:a ; the bank"; " goal food by 2024/07/20"; " amount     $30 // a month"; "	funding aggressive";
   "account b"; "; now it starts"; "currency	$ (dollars)"; "2024/03/01   *	Salary    [ACME]"; " ; a comment"; "	assets:a	$100; good"; "                b"; ""]%string.
Fixpoint cut (cur : str) (ls : list str) : list str :=
  match ls with
  | [] => [cur]
  | l :: ls' => match l with c :: _ => if is_ws c then cut (cur ++ 10%N :: l) ls' else cur :: cut l ls' | [] => cur :: cut l ls' end
  end.
Lemma cut_chunks ls : forall cur, chunks cur ls (cut cur ls).
Proof.
  induction ls as [|l ls IH]; intro cur; cbn [cut]; [constructor|]. destruct l as [|c l].
  - apply chunks_new; [intros (c & r & E & _); discriminate|apply IH].
  - destruct (is_ws c) eqn:W; [apply chunks_more; [exists c, l; auto|apply IH]|].
    apply chunks_new; [intros (d & r & E & K); injection E as <- <-; congruence|apply IH].
Qed.
Example C118_case :
  let w := world_of [([lit "j"], text neat)] [[]] [] in
  let v := world_of [([lit "j"], text loose)] [[]] [] in
  relaid_world w v
  /\ o_out (main (ctx [("SILVERFOX_FILE", "j")]%string (fun _ => [])) [lit "e"] w) = o_out (main (ctx [("SILVERFOX_FILE", "j")]%string (fun _ => [])) [lit "e"] v)
  /\ o_out (main (ctx [("SILVERFOX_FILE", "j")]%string (fun _ => [])) [lit "e"] w) <> [].
Proof.
  cbv zeta. split; [|split; [vm_compute; reflexivity|vm_compute; discriminate]].
  split; [reflexivity|]. split; [reflexivity|]. intro p. unfold world_of. cbn [files find fst].
  destruct (path_eqb [lit "j"] p); [|exact I]. cbn [option_map snd].
  exists (cut [] (contents (lines (text neat)))), (cut [] (contents (lines (text loose)))). split; [apply cut_chunks|]. split; [apply cut_chunks|].
  set (cs := cut _ _). set (ds := cut _ _). vm_compute in cs, ds. subst cs ds.
  constructor; [apply relaid_same|]. constructor.
  { eapply relaid_account; [vm_compute; reflexivity|vm_compute; reflexivity|vm_compute; reflexivity|vm_compute; reflexivity|].
    constructor; [left; vm_compute; reflexivity|]. constructor; [|constructor; [left; vm_compute; reflexivity|constructor]].
    right. exists (lit "amount"), (lit "$30"), (lit "    $30"). split; [right; left; reflexivity|]. repeat split; vm_compute; reflexivity. }
  constructor; [apply relaid_same|].
  constructor; [apply relaid_value with (k := lit "currency"); [left; reflexivity|vm_compute; reflexivity|vm_compute; reflexivity]|].
  constructor; [|constructor]. apply relaid_entry; [vm_compute; reflexivity|]. intros k E. vm_compute in E. injection E as <-. vm_compute. intuition discriminate.
Qed.

(** The same words in every line, yet one journal is read and the other is not: a
    tab after [amount], a space and a comment after the first line of an envelope,
    two spaces in it. *)
Theorem C118_refuted : exists ps : list (list string * list string),
  List.length ps = 3%nat /\ forall x y, In (x, y) ps ->
    map (fun l => split_ws (content (lit l))) x = map (fun l => split_ws (content (lit l))) y
    /\ match loading x, loading y with Ok _, Err _ => True | _, _ => False end.
Proof.
  exists [(["account a"; "  goal food by 2024/07/20"; "    amount $30"], ["account a"; "  goal food by 2024/07/20"; "    amount	$30"]);
     (["account a"; "  goal food by 2024/07/20"; "    amount $30"], ["account a"; "  goal food by 2024/07/20 ; soon"; "    amount $30"]);
     (["account a"; "  expense food due every friday"; "    amount $30"], ["account a"; "  expense food due  every friday"; "    amount $30"])]%string.
  split; [reflexivity|]. intros x y [H|[H|[H|[]]]]; injection H as <- <-; split; vm_compute; first [reflexivity|exact I].
Qed.
Print Assumptions C118_refuted.
