(** The interpreter on compiled programs of SpecLang: statements. *)
From Coq Require Import NArith ZArith String List Bool Lia Wf_nat.
From Coq.Strings Require Import Byte.
From Verif Require Import Base BaseFacts Metadata Runtime Value Opcodes Gc Interp SpecExec SpecFrames SpecStack SpecRuntime SpecLang
  InterpFacts TraceFacts StackFacts LangFacts PropsValue PropsCompare PropsDecode.
Import ListNotations.
Open Scope N_scope.

(** Where a statement leads that starts in [fr] and [s] and whose code ends at address [e]. *)
Definition target (p : profile) (fr : frame) (s : machine) (e : N) (f : conclusion) (fr' : frame) (s' : machine) : Prop :=
  match f with
  | Goes en => fr' = set_ip fr e /\ env_at fr s' en /\ kept s s'
  | Returns z en => (exists ip, fr' = set_ip fr ip) /\ code_here fr' [x2a] /\ int32 z /\
      env_at fr s' en /\ kept s (set_operands s' (x_operands s)) /\ x_operands s' = VInt I32 z :: x_operands s
  | Traps => panics_at p fr' s'
  | Unknown => True
  end.
Definition ends (p : profile) (fr : frame) (s : machine) (e : N) (f : conclusion) : Prop :=
  eventually p 0 (target p fr s e f) fr s.

Lemma target_from p fr s e f x s1 fr' s' : kept s s1 -> target p (set_ip fr x) s1 e f fr' s' -> target p fr s e f fr' s'.
Proof.
  intros K. destruct f as [en|z en| |]; cbn [target]; auto.
  - intros (A & B & C). split; [exact A|]. split; [exact B|exact (kept_trans _ _ _ K C)].
  - intros ((ip & ->) & B & Z & C & D & E). split; [exists ip; reflexivity|]. split; [exact B|]. split; [exact Z|].
    split; [exact C|]. rewrite <- (kp_operands _ _ K). split; [exact (kept_trans _ _ _ K D)|exact E].
Qed.
Lemma ends_from p k fr s e f x s1 : reach p k fr s (set_ip fr x) s1 -> kept s s1 -> ends p (set_ip fr x) s1 e f -> ends p fr s e f.
Proof.
  intros R K (n & fr' & s' & H & T). apply (eventually_less _ (k + 0)). eapply eventually_reach; [exact R|].
  exists n, fr', s'. split; [exact H|]. eapply target_from; eauto.
Qed.
Lemma ends_unknown p fr s e : ends p fr s e Unknown.
Proof. apply eventually_now. exact I. Qed.

(** Code that is small enough for all addresses to be in range. *)
Definition small (fr : frame) : Prop := len (fr_code fr) < 2 ^ 63.
Lemma behind_small fr bs : small fr -> code_here fr bs -> behind fr bs < 2 ^ 63.
Proof. unfold small, behind. intros S (pre & post & C & I). rewrite C, !len_app in S. lia. Qed.

Ltac sizes :=
  unfold behind, size, len in *; cbn [fr_ip set_ip] in *; repeat (progress (cbn [List.length app] in *; rewrite ?app_length in *));
  repeat match goal with |- context [2 ^ 63] => change (2 ^ 63) with 9223372036854775808 | H : context [2 ^ 63] |- _ => change (2 ^ 63) with 9223372036854775808 in H end;
  repeat match goal with |- context [(2 ^ 64)%Z] => change (2 ^ 64)%Z with 18446744073709551616%Z end;
  lia.

Section Statements.
  Variable p : profile.

  Definition correct (en : env) (st : stmt) (f : conclusion) : Prop :=
    forall bs fr s, stmt_code st bs -> code_here fr bs -> env_at fr s en -> apart (fr_params fr) (fr_locals fr) -> small fr ->
      ends p fr s (behind fr bs) f.

  Lemma no_number_ends a f fr s e n l : no_number a f -> delivers p fr s n l a -> ends p fr s e f.
  Proof. intros [[-> ->]|[-> ->]] D; [exact D|apply ends_unknown]. Qed.

  (** Both branches of a condition lead to the same kind of end. *)
  Lemma cond_ends en c want ts n ds fr s e f : branch_on c want ts n -> List.length ds = n -> code_here fr (ts ++ ds) ->
    env_at fr s en -> (0 <= Z.of_N (behind fr (ts ++ ds)) + signed_number ds < 2 ^ 64)%Z ->
    (no_number (eval_cond p en c) f \/ exists z, eval_cond p en c = Gives z /\
       ends p (set_ip fr (if Bool.eqb (negb (z =? 0)%Z) want
                  then Z.to_N (Z.of_N (behind fr (ts ++ ds)) + signed_number ds) else behind fr (ts ++ ds))) s e f) ->
    ends p fr s e f.
  Proof.
    intros B L C EN R H. pose proof (cond_ok p en c want ts n ds fr s B L C EN R) as D.
    destruct H as [[[E ->]|[E ->]]|(z & E & H)].
    - rewrite E in D. exact D.
    - apply ends_unknown.
    - rewrite E in D. destruct D as [k D]. eapply ends_from; [exact D|apply kept_refl|exact H].
  Qed.

  Lemma assign_ok en argument i e z : eval p en e = Gives z -> exists_var en argument i = true ->
    correct en (Assign argument i e) (Goes (assign en argument i z)).
  Proof.
    intros E X bs fr s SC C EN AP SM. inversion SC as [| |argument' i' e' bs' cs XC STC| | | | | |]; subst.
    pose proof (code_here_prefix _ _ _ C) as C1. apply code_here_drop in C.
    pose proof (expr_ok p en e bs' XC fr s C1 EN) as D. rewrite E in D. destruct D as [Z [k R]].
    set (s1 := set_operands s (VInt I32 z :: x_operands s)) in *. set (fr1 := set_ip fr (fr_ip fr + len bs')) in *.
    assert (EN1 : env_at fr1 s1 en) by exact EN.
    assert (V : exists w, variable s1 (group fr1 argument) i w).
    { destruct EN1 as [EA EL]. destruct argument; cbn [exists_var group] in *; apply Nat.ltb_lt in X.
      - destruct (nth_error (e_args en) (N.to_nat i)) as [u|] eqn:U; [|apply nth_error_None in U; lia].
        destruct (EA i u U). eauto.
      - destruct (nth_error (e_locals en) (N.to_nat i)) as [u|] eqn:U; [|apply nth_error_None in U; lia].
        destruct (EL i u U) as (w & Hw & _). eauto. }
    destruct V as [w V].
    pose proof (C48_store_variable 0 p fr1 s1 cs argument i w (VInt I32 z) (x_operands s) STC C V eq_refl) as ST.
    pose proof ST as (fr2 & s2 & E2 & F2 & O2 & V2 & H2 & A2 & _ & G2 & _ & L2 & LH & _).
    apply (eventually_less _ (S k + 1)). eapply eventually_reach; [exact R|].
    exists 0%nat, fr2, s2. split.
    - cbn [Nat.add]. apply reach_1. intro f. eapply step_more; [exact E2|discriminate|lia].
    - cbn [target]. apply frame_at_eq in F2. subst fr2. split; [|split].
      + unfold fr1. rewrite set_ip_twice. f_equal. unfold behind. rewrite len_app. cbn [fr_ip set_ip]. lia.
      + pose proof (env_assign fr1 s1 s2 _ en argument i z (len cs) (x_operands s) _ ST E2 EN1 AP Z X) as G. exact G.
      + now constructor.
  Qed.

  (** ** Loops: the address [test] of the condition and [body] of the body *)
  Record loop (c : cond) (a : stmt) (bs : list byte) (fr : frame) (test body : N) (cs : list byte) : Prop := mkLoop {
    lp_body : stmt_code a cs;
    lp_here : code_here (set_ip fr body) cs;
    lp_some : bs <> [];
    lp_entry : forall s, test = fr_ip fr \/
      ~ code_here fr [x2a] /\ forall f, step f p fr s = Ok (ONext (set_ip fr test)) s;
    lp_test : forall en s, env_at fr s en ->
      match eval_cond p en c with
      | Gives z => exists k, reach p (S (S k)) (set_ip fr test) s (set_ip fr (if (z =? 0)%Z then behind fr bs else body)) s
      | Trap => eventually p 0 (panics_at p) (set_ip fr test) s
      | Unspecified => True
      end;
    lp_again : forall s, exists k, reach p k (set_ip fr (behind (set_ip fr body) cs)) s (set_ip fr test) s }.

  Lemma code_here_first fr b b' l l' : code_here fr (b :: l) -> code_here fr (b' :: l') -> b = b'.
  Proof.
    intros (pre & post & C & I) (pre' & post' & C' & I'). rewrite C in C'.
    assert (L : List.length pre = List.length pre') by (unfold len in *; lia).
    assert (H : nth_error (pre ++ (b :: l) ++ post) (List.length pre) = nth_error (pre' ++ (b' :: l') ++ post') (List.length pre'))
      by now rewrite C', L.
    rewrite (nth_error_app2 pre), (nth_error_app2 pre'), !Nat.sub_diag in H by lia. cbn in H. congruence.
  Qed.

  Lemma while_loop c a bs fr : stmt_code (While c a) bs -> code_here fr bs -> small fr ->
    exists test body cs, loop c a bs fr test body cs.
  Proof.
    intros SC C SM. pose proof (behind_small _ _ SM C) as SZ.
    inversion SC as [| | | | | |c' a' ts n ds bs' j k es BO LD SA J LE DD DE|c' a' ts n ds bs' j k es J LE SA BO LD DE DD|]; subst c' a'; subst.
    - assert (C1 : code_here fr (ts ++ ds)).
      { apply (code_here_prefix _ _ (bs' ++ [j] ++ es)). now rewrite <- app_assoc. }
      assert (C2 : code_here (set_ip fr (behind fr (ts ++ ds))) (bs' ++ [j] ++ es)).
      { apply code_here_drop. now rewrite <- app_assoc. }
      exists (fr_ip fr), (behind fr (ts ++ ds)), bs'. constructor.
      + exact SA.
      + now apply code_here_prefix in C2.
      + intro E. apply app_eq_nil in E. destruct E as [_ E]. apply app_eq_nil in E. destruct E as [_ E].
        apply app_eq_nil in E. destruct E as [_ E]. discriminate.
      + intro s. now left.
      + intros en s EN. rewrite set_ip_same.
        pose proof (cond_ok p en c false ts _ ds fr s BO eq_refl C1 EN) as D.
        destruct (eval_cond p en c) as [z| |]; [|apply D; sizes|exact I].
        destruct D as [k D]; [sizes|]. exists k.
        match type of D with reach _ _ _ _ (set_ip fr ?x) _ =>
          replace (if (z =? 0)%Z then behind fr (ts ++ ds ++ bs' ++ [j] ++ es) else behind fr (ts ++ ds)) with x; [exact D|] end.
        destruct (z =? 0)%Z; cbn [negb Bool.eqb]; [|reflexivity]. rewrite DD. sizes.
      + intro s. exists 1%nat. apply code_here_drop in C2. cbn [app] in C2.
        apply reach_1. intro f.
        change (set_ip (set_ip fr (behind fr (ts ++ ds))) (fr_ip (set_ip fr (behind fr (ts ++ ds))) + len bs'))
          with (set_ip fr (behind (set_ip fr (behind fr (ts ++ ds))) bs')) in C2.
        rewrite (jump_ok p j _ es _ s J eq_refl C2) by (rewrite DE; sizes).
        rewrite set_ip_twice, DE. do 3 f_equal. sizes.
    - assert (C1 : code_here fr (j :: es)).
      { apply (code_here_prefix _ _ (bs' ++ ts ++ ds)). exact C. }
      assert (C2 : code_here (set_ip fr (behind fr (j :: es))) (bs' ++ ts ++ ds)).
      { apply code_here_drop. exact C. }
      exists (behind fr (j :: es ++ bs')), (behind fr (j :: es)), bs'. constructor.
      + exact SA.
      + now apply code_here_prefix in C2.
      + discriminate.
      + intro s. right. split.
        * intro X. pose proof (code_here_first _ _ _ _ _ C1 X) as ->. inversion J.
        * intro f. rewrite (jump_ok p j _ es fr s J eq_refl C1) by (rewrite DE; sizes).
          do 3 f_equal. rewrite DE. sizes.
      + intros en s EN. apply code_here_drop in C2.
        assert (X : fr_ip (set_ip fr (behind fr (j :: es))) + len bs' = behind fr (j :: es ++ bs')) by sizes.
        rewrite X in C2. rewrite set_ip_twice in C2.
        pose proof (cond_ok p en c true ts _ ds (set_ip fr (behind fr (j :: es ++ bs'))) s BO eq_refl C2 EN) as D.
        destruct (eval_cond p en c) as [z| |]; [|apply D; sizes|exact I].
        destruct D as [k D]; [sizes|]. exists k. rewrite set_ip_twice in D.
        match type of D with reach _ _ _ _ (set_ip fr ?x) _ =>
          replace (if (z =? 0)%Z then behind fr ([j] ++ es ++ bs' ++ ts ++ ds) else behind fr (j :: es)) with x; [exact D|] end.
        destruct (z =? 0)%Z; cbn [negb Bool.eqb]; [|rewrite DD]; sizes.
      + intro s. exists 0%nat. 
        replace (behind (set_ip fr (behind fr (j :: es))) bs') with (behind fr (j :: es ++ bs')) by sizes. constructor.
  Qed.

  Lemma loop_entry c a bs fr test body cs s e f : loop c a bs fr test body cs ->
    ends p (set_ip fr test) s e f -> ends p fr s e f.
  Proof.
    intros L H. destruct (lp_entry _ _ _ _ _ _ _ L s) as [->|[_ E]].
    - now rewrite set_ip_same in H.
    - eapply ends_from; [apply reach_1; exact E|apply kept_refl|exact H].
  Qed.
  Lemma loop_back c a bs fr test body cs s f : loop c a bs fr test body cs ->
    ends p fr s (behind fr bs) f -> ends p (set_ip fr test) s (behind fr bs) f.
  Proof.
    intros L H. destruct (lp_entry _ _ _ _ _ _ _ L s) as [->|[N E]].
    - now rewrite set_ip_same.
    - destruct f as [en|z en| |]; [| | |apply ends_unknown].
      + eapply eventually_back in H; [exact H|exact E|]. intros (X & _).
        assert (Y : fr_ip fr = fr_ip (set_ip fr (behind fr bs))) by now rewrite <- X.
        pose proof (lp_some _ _ _ _ _ _ _ L). destruct bs; [congruence|]. unfold behind, len in Y. cbn [fr_ip set_ip List.length] in Y. lia.
      + eapply eventually_back in H; [exact H|exact E|]. intros (_ & X & _). contradiction.
      + eapply eventually_back in H; [exact H|exact E|]. intros X. destruct (X 0%nat) as [w X']. rewrite E in X'. discriminate.
  Qed.

  Lemma statement_ok en st f : finishes p en st f -> correct en st f.
  Proof.
    induction 1 as [en|en arg i e z E X|en arg i e z E X|en arg i e f NN|en a b en1 f Ha IHa Hb IHb|en a b f Ha IHa S
                   |en c a b z f E H IH|en c a b f NN|en c a E|en c a z en1 f E NZ Ha IHa Hw IHw|en c a z f E NZ Ha IHa S|en c a f NN
                   |en e z E|en e f NN].
    - (* skip *)
      intros bs fr s SC C EN AP SM. inversion SC; subst.
      + apply eventually_now. cbn [target]. split; [|split; [exact EN|apply kept_refl]].
        unfold behind. change (len []) with 0. rewrite N.add_0_r. symmetry. apply set_ip_same.
      + apply (eventually_less _ 1). exists 0%nat, (set_ip fr (fr_ip fr + 1)), s. split.
        * apply reach_1. intro f. step_at C. reflexivity.
        * split; [reflexivity|]. split; [exact EN|apply kept_refl].
    - now apply assign_ok.
    - intros bs fr s SC C EN AP SM. apply ends_unknown.
    - intros bs fr s SC C EN AP SM. inversion SC as [| |argument' i' e' bs' cs XC STC| | | | | |]; subst.
      apply code_here_prefix in C. eapply no_number_ends; [exact NN|]. eapply expr_ok; eauto.
    - (* seq *)
      intros bs fr s SC C EN AP SM. inversion SC as [| | |a' b' bs' cs SA SB| | | | |]; subst.
      pose proof (code_here_prefix _ _ _ C) as C1. apply code_here_drop in C.
      destruct (IHa bs' fr s SA C1 EN AP SM) as (n & fr1 & s1 & R & -> & EN1 & K).
      eapply ends_from; [exact R|exact K|].
      replace (behind fr (bs' ++ cs)) with (behind (set_ip fr (behind fr bs')) cs)
        by (unfold behind; cbn [fr_ip set_ip]; rewrite len_app; lia).
      now apply IHb.
    - intros bs fr s SC C EN AP SM. inversion SC as [| | |a' b' bs' cs SA SB| | | | |]; subst.
      pose proof (code_here_prefix _ _ _ C) as C1.
      destruct (IHa bs' fr s SA C1 EN AP SM) as (n & fr1 & s1 & R & T). exists n, fr1, s1. split; [exact R|].
      destruct f; cbn [stops target] in *; auto; contradiction.
    - (* if *)
      intros bs fr s SC C EN AP SM.
      inversion SC as [| | | |c' a' b' ts n ds bs' j k es cs BO LD SA J LE SB DD DE|c' a' ts n ds bs' BO LD SA DD| | |]; subst c'; subst.
      + pose proof (behind_small _ _ SM C) as SZ.
        assert (C1 : code_here fr (ts ++ ds)).
        { apply (code_here_prefix _ _ (bs' ++ [j] ++ es ++ cs)). now rewrite <- app_assoc. }
        eapply cond_ends; eauto; [sizes|]. right. exists z. split; [exact E|].
        assert (C2 : code_here (set_ip fr (behind fr (ts ++ ds))) (bs' ++ [j] ++ es ++ cs)).
        { apply code_here_drop. now rewrite <- app_assoc. }
        destruct (Z.eqb_spec z 0) as [->|NZ]; cbn [negb Bool.eqb].
        * (* else *)
          set (x := Z.to_N _).
          assert (X : x = behind fr (ts ++ ds ++ bs' ++ [j] ++ es)) by (unfold x; rewrite DD; sizes).
          assert (C3 : code_here (set_ip fr x) cs).
          { rewrite X. apply code_here_drop. rewrite <- !app_assoc. exact C. }
          replace (behind fr (ts ++ ds ++ bs' ++ [j] ++ es ++ cs)) with (behind (set_ip fr x) cs)
            by (rewrite X; unfold behind; cbn [fr_ip set_ip]; rewrite !len_app; lia).
          now apply IH.
        * (* then *)
          set (x := behind fr (ts ++ ds)) in *.
          pose proof (code_here_prefix _ _ _ C2) as C3.
          specialize (IH bs' (set_ip fr x) s SA C3 EN AP SM).
          destruct IH as (n' & fr1 & s1 & R & T). destruct f as [en'|z' en'| |]; cbn [target] in T.
          -- destruct T as (-> & EN' & K). eapply ends_from; [exact R|exact K|].
             apply code_here_drop in C2. change (set_ip (set_ip fr x) (fr_ip (set_ip fr x) + len bs')) with (set_ip fr (behind (set_ip fr x) bs')) in C2.
             set (y := behind (set_ip fr x) bs') in *. rewrite app_assoc in C2. apply code_here_prefix in C2.
             exists 1%nat, (set_ip fr (behind fr (ts ++ ds ++ bs' ++ [j] ++ es ++ cs))), s1. split.
             ++ apply reach_1. intro f. change (set_ip (set_ip fr x) y) with (set_ip fr y).
                rewrite (jump_ok p j _ es (set_ip fr y) s1 J eq_refl C2).
                ** assert (T : Z.to_N (Z.of_N (behind (set_ip fr y) (j :: es)) + signed_number es)
                               = behind fr (ts ++ ds ++ bs' ++ [j] ++ es ++ cs)) by (rewrite DE; unfold y, x; sizes).
                   rewrite T. reflexivity.
                ** rewrite DE. unfold y, x. sizes.
             ++ split; [reflexivity|]. split; [exact EN'|apply kept_refl].
          -- exists n', fr1, s1. split; [exact R|exact T].
          -- exists n', fr1, s1. split; [exact R|exact T].
          -- apply ends_unknown.
      + pose proof (behind_small _ _ SM C) as SZ.
        assert (C1 : code_here fr (ts ++ ds)).
        { apply (code_here_prefix _ _ bs'). now rewrite <- app_assoc. }
        eapply cond_ends; eauto; [sizes|]. right. exists z. split; [exact E|].
        assert (C2 : code_here (set_ip fr (behind fr (ts ++ ds))) bs').
        { apply code_here_drop. now rewrite <- app_assoc. }
        destruct (Z.eqb_spec z 0) as [->|NZ]; cbn [negb Bool.eqb].
        * set (x := Z.to_N _). assert (X : x = behind fr (ts ++ ds ++ bs')) by (unfold x; rewrite DD; sizes).
          inversion H; subst. apply eventually_now. rewrite X. split; [reflexivity|]. split; [exact EN|apply kept_refl].
        * replace (behind fr (ts ++ ds ++ bs')) with (behind (set_ip fr (behind fr (ts ++ ds))) bs') by sizes.
          now apply IH.
    - (* if, no number *)
      intros bs fr s SC C EN AP SM.
      inversion SC as [| | | |c' a' b' ts n ds bs' j k es cs BO LD SA J LE SB DD DE|c' a' ts n ds bs' BO LD SA DD| | |]; subst c'; subst.
      + pose proof (behind_small _ _ SM C) as SZ.
        assert (C1 : code_here fr (ts ++ ds)).
        { apply (code_here_prefix _ _ (bs' ++ [j] ++ es ++ cs)). now rewrite <- app_assoc. }
        eapply cond_ends; eauto. sizes.
      + pose proof (behind_small _ _ SM C) as SZ.
        assert (C1 : code_here fr (ts ++ ds)).
        { apply (code_here_prefix _ _ bs'). now rewrite <- app_assoc. }
        eapply cond_ends; eauto. sizes.
    - (* while, at the end *)
      intros bs fr s SC C EN AP SM. destruct (while_loop c a bs fr SC C SM) as (test & body & cs & L).
      eapply loop_entry; [exact L|]. pose proof (lp_test _ _ _ _ _ _ _ L en s EN) as D. rewrite E in D. destruct D as [k D].
      cbn in D. exists (S (S k)), (set_ip fr (behind fr bs)), s. split; [exact D|]. split; [reflexivity|]. split; [exact EN|apply kept_refl].
    - (* while, once more *)
      intros bs fr s SC C EN AP SM. destruct (while_loop c a bs fr SC C SM) as (test & body & cs & L).
      eapply loop_entry; [exact L|]. pose proof (lp_test _ _ _ _ _ _ _ L en s EN) as D. rewrite E in D. destruct D as [k D].
      apply Z.eqb_neq in NZ. rewrite NZ in D.
      rewrite <- (set_ip_twice fr test body) in D.
      eapply ends_from; [exact D|apply kept_refl|]. rewrite set_ip_twice.
      destruct (IHa cs (set_ip fr body) s (lp_body _ _ _ _ _ _ _ L) (lp_here _ _ _ _ _ _ _ L) EN AP SM) as (n & fr1 & s1 & R & -> & EN1 & K).
      eapply ends_from; [exact R|exact K|]. rewrite set_ip_twice.
      destruct (lp_again _ _ _ _ _ _ _ L s1) as [k' R'].
      rewrite <- (set_ip_twice fr (behind (set_ip fr body) cs) test) in R'.
      eapply ends_from; [exact R'|apply kept_refl|]. rewrite set_ip_twice.
      eapply loop_back; [exact L|]. now apply IHw.
    - (* while, stopped *)
      intros bs fr s SC C EN AP SM. destruct (while_loop c a bs fr SC C SM) as (test & body & cs & L).
      eapply loop_entry; [exact L|]. pose proof (lp_test _ _ _ _ _ _ _ L en s EN) as D. rewrite E in D. destruct D as [k D].
      apply Z.eqb_neq in NZ. rewrite NZ in D.
      rewrite <- (set_ip_twice fr test body) in D.
      eapply ends_from; [exact D|apply kept_refl|]. rewrite set_ip_twice.
      destruct (IHa cs (set_ip fr body) s (lp_body _ _ _ _ _ _ _ L) (lp_here _ _ _ _ _ _ _ L) EN AP SM) as (n & fr1 & s1 & R & T).
      exists n, fr1, s1. split; [exact R|]. destruct f; cbn [stops target] in *; auto; contradiction.
    - (* while, no number *)
      intros bs fr s SC C EN AP SM. destruct (while_loop c a bs fr SC C SM) as (test & body & cs & L).
      eapply loop_entry; [exact L|]. pose proof (lp_test _ _ _ _ _ _ _ L en s EN) as D.
      destruct NN as [[E ->]|[E ->]]; [|apply ends_unknown]. rewrite E in D. exact D.
    - (* return *)
      intros bs fr s SC C EN AP SM. inversion SC as [| | | | | | | |e' bs' XC]; subst.
      pose proof (code_here_prefix _ _ _ C) as C1. apply code_here_drop in C.
      pose proof (expr_ok p en e bs' XC fr s C1 EN) as D. rewrite E in D. destruct D as [Z [k R]].
      eexists (S k), _, _. split; [exact R|]. split; [eexists; reflexivity|]. split; [exact C|]. split; [exact Z|]. split; [exact EN|].
      split; [|reflexivity]. constructor; reflexivity.
    - intros bs fr s SC C EN AP SM. inversion SC as [| | | | | | | |e' bs' XC]; subst.
      apply code_here_prefix in C. eapply no_number_ends; [exact NN|]. eapply expr_ok; eauto.
  Qed.

  (** ** A program that the interpreter finishes has an outcome *)

  Lemma number_or_not a : (exists z, a = Gives z) \/ exists f, no_number a f.
  Proof. destruct a as [z| |]; [eauto|right; exists Traps; left; auto|right; exists Unknown; right; auto]. Qed.

  Definition halting (n : nat) (st : stmt) : Prop :=
    forall bs fr s en, stmt_code st bs -> code_here fr bs -> env_at fr s en -> apart (fr_params fr) (fr_locals fr) -> small fr ->
      run n p fr s <> NoFuel -> exists f, finishes p en st f.

  Lemma halting_all n : forall st, halting n st.
  Proof.
    induction n as [n OUT] using lt_wf_ind.
    assert (ANY : forall m st, (m <= n)%nat -> halting n st -> halting m st).
    { intros m st L H. destruct (Nat.eq_dec m n) as [->|]; [exact H|]. apply OUT. lia. }
    induction st as [|argument i e|a IHa b IHb|c a IHa b IHb|c a IHa|e]; intros bs fr s en SC C EN AP SM R.
    - eauto using finishes.
    - destruct (number_or_not (eval p en e)) as [(z & E)|(f & NN)]; [|eauto using finishes].
      destruct (exists_var en argument i) eqn:X; eauto using finishes.
    - inversion SC as [| | |a' b' bs' cs SA SB| | | | |]; subst.
      pose proof (code_here_prefix _ _ _ C) as C1. apply code_here_drop in C.
      destruct (IHa bs' fr s en SA C1 EN AP SM R) as [f Hf].
      destruct f as [en1|z en1| |]; try (eexists; eapply fin_seq_stops; [exact Hf|exact I]).
      destruct (statement_ok _ _ _ Hf bs' fr s SA C1 EN AP SM) as (k & fr1 & s1 & RE & -> & EN1 & K).
      destruct (reach_rest p _ _ _ _ _ n RE R) as [LE RR]. rewrite RR in R.
      destruct (ANY (n - (0 + k))%nat b ltac:(lia) IHb cs _ s1 en1 SB C EN1 AP SM R) as [f Hf']. eauto using finishes.
    - destruct (number_or_not (eval_cond p en c)) as [(z & E)|(f & NN)]; [|eauto using finishes].
      assert (H : exists f, finishes p en (if (z =? 0)%Z then b else a) f); [|destruct H; eauto using finishes].
      pose proof (behind_small _ _ SM C) as SZ.
      inversion SC as [| | | |c' a' b' ts m ds bs' j k es cs BO LD SA J LE SB DD DE|c' a' ts m ds bs' BO LD SA DD| | |]; subst c'; subst.
      + assert (C1 : code_here fr (ts ++ ds)).
        { apply (code_here_prefix _ _ (bs' ++ [j] ++ es ++ cs)). now rewrite <- app_assoc. }
        pose proof (cond_ok p en c false ts _ ds fr s BO eq_refl C1 EN) as D. rewrite E in D. destruct D as [k D]; [sizes|].
        destruct (reach_rest p _ _ _ _ _ n D R) as [LE RR]. rewrite RR in R.
        destruct (Z.eqb_spec z 0) as [->|NZ]; cbn [negb Bool.eqb] in *.
        * assert (X : Z.to_N (Z.of_N (behind fr (ts ++ ds)) + signed_number ds) = behind fr (ts ++ ds ++ bs' ++ [j] ++ es)) by (rewrite DD; sizes).
          rewrite X in R. refine (ANY (n - S (S k))%nat b ltac:(lia) IHb cs (set_ip fr (behind fr (ts ++ ds ++ bs' ++ [j] ++ es))) s en SB _ EN AP SM R).
          apply code_here_drop. rewrite <- !app_assoc. exact C.
        * refine (ANY (n - S (S k))%nat a ltac:(lia) IHa bs' (set_ip fr (behind fr (ts ++ ds))) s en SA _ EN AP SM R).
          apply (code_here_prefix _ _ ([j] ++ es ++ cs)). apply code_here_drop. rewrite <- !app_assoc. exact C.
      + assert (C1 : code_here fr (ts ++ ds)).
        { apply (code_here_prefix _ _ bs'). now rewrite <- app_assoc. }
        pose proof (cond_ok p en c false ts _ ds fr s BO eq_refl C1 EN) as D. rewrite E in D. destruct D as [k D]; [sizes|].
        destruct (reach_rest p _ _ _ _ _ n D R) as [LE RR]. rewrite RR in R.
        destruct (Z.eqb_spec z 0) as [->|NZ]; cbn [negb Bool.eqb] in *; [eauto using finishes|].
        refine (ANY (n - S (S k))%nat a ltac:(lia) IHa bs' (set_ip fr (behind fr (ts ++ ds))) s en SA _ EN AP SM R).
        apply code_here_drop. rewrite <- !app_assoc. exact C.
    - destruct (number_or_not (eval_cond p en c)) as [(z & E)|(f & NN)]; [|eauto using finishes].
      destruct (Z.eqb_spec z 0) as [->|NZ]; [eauto using finishes|].
      destruct (while_loop c a bs fr SC C SM) as (test & body & cs & L).
      assert (H : exists m, (m <= n)%nat /\ run m p (set_ip fr test) s <> NoFuel).
      { destruct (lp_entry _ _ _ _ _ _ _ L s) as [->|[_ ST]].
        - exists n. rewrite set_ip_same. auto.
        - destruct (reach_rest p _ _ _ _ _ n (reach_1 p _ _ _ _ ST) R) as [LE RR]. rewrite RR in R. exists (n - 1)%nat. split; [lia|exact R]. }
      destruct H as (m & LM & RM). clear R.
      pose proof (lp_test _ _ _ _ _ _ _ L en s EN) as D. rewrite E in D. destruct D as [k D].
      pose proof NZ as NZ'. apply Z.eqb_neq in NZ'. rewrite NZ' in D.
      destruct (reach_rest p _ _ _ _ _ m D RM) as [LE RR]. rewrite RR in RM.
      destruct (ANY (m - S (S k))%nat a ltac:(lia) IHa cs _ s en (lp_body _ _ _ _ _ _ _ L) (lp_here _ _ _ _ _ _ _ L) EN AP SM RM) as [f Hf].
      destruct f as [en1|z' en1| |]; try (eexists; eapply fin_while_stops; eauto; exact I).
      destruct (statement_ok _ _ _ Hf cs _ s (lp_body _ _ _ _ _ _ _ L) (lp_here _ _ _ _ _ _ _ L) EN AP SM) as (k1 & fr1 & s1 & RE & -> & EN1 & K).
      destruct (reach_rest p _ _ _ _ _ _ RE RM) as [LE1 RR1]. rewrite RR1 in RM.
      destruct (lp_again _ _ _ _ _ _ _ L s1) as [k2 R2]. rewrite set_ip_twice in RM.
      destruct (reach_rest p _ _ _ _ _ _ R2 RM) as [LE2 RR2]. rewrite RR2 in RM.
      assert (H : exists m', (m' < n)%nat /\ run m' p fr s1 <> NoFuel).
      { destruct (lp_entry _ _ _ _ _ _ _ L s1) as [->|[_ ST]].
        - rewrite set_ip_same in RM. exists (m - S (S k) - (0 + k1) - k2)%nat. split; [lia|exact RM].
        - exists (S (m - S (S k) - (0 + k1) - k2))%nat. split; [lia|].
          change (S (m - S (S k) - (0 + k1) - k2)) with (1 + (m - S (S k) - (0 + k1) - k2))%nat.
          rewrite (reach_run p 1 _ _ _ _ (m - S (S k) - (0 + k1) - k2)%nat (reach_1 p _ _ _ _ ST)). exact RM. }
      destruct H as (m' & LM' & RM').
      destruct (OUT m' LM' (While c a) bs fr s1 en1 SC C EN1 AP SM RM') as [f Hf']. eauto using finishes.
    - destruct (number_or_not (eval p en e)) as [(z & E)|(f & NN)]; eauto using finishes.
  Qed.
End Statements.
