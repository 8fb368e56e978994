(** Statistics never panic, and do not tell integers from their floats. *)
From Coq Require Import ZArith Lia.
From Verif Require Import Base M_Decimal M_Float M_Histo M_Stream M_Stats S_Stats L_Stats S_Calculate.

Section Live.
  Variable estimate : list bytes -> Z.
  Variable top_keys : list bytes -> list (bytes * Z).
  Notation close := (M_Stats.close estimate top_keys).
  Notation close_all := (M_Stats.close_all estimate top_keys).

  (** An accumulator that has seen a value. *)
  Inductive live : acc -> Prop :=
  | lv_null : forall c, live (ANull c)
  | lv_bool : forall c t f, live (ABool c t f)
  | lv_num : forall c mn mx mean med d h xs, xs <> [] -> live (ANum c mn mx mean med d h (sk_of xs))
  | lv_str : forall c mn mx u f seen, live (AStr c mn mx u f seen)
  | lv_obj : forall ch, Forall (fun kc => live (snd kc)) ch -> live (AObj ch)
  | lv_arr : forall ch, Forall live ch -> live (AArr ch).

  Lemma sk_of_snoc : forall xs x, sk_add x (sk_of xs) = sk_of (xs ++ [x]).
  Proof. intros xs x. unfold sk_of. rewrite <- !sk_fold, fold_left_app. reflexivity. Qed.
  Lemma live_num : forall f a, live a -> live (write_num f a).
  Proof.
    intros f a H. destruct H; cbn [write_num]; try (constructor; assumption). rewrite sk_of_snoc. constructor.
    intros E. apply app_eq_nil in E as [_ E]. discriminate.
  Qed.
  Lemma live_set : forall k c (ch : list (bytes * acc)), live c -> Forall (fun kc => live (snd kc)) ch -> Forall (fun kc => live (snd kc)) (map_set k c ch).
  Proof.
    intros k c ch Hc H. induction H as [|[k1 c1] ch H1 H IH]; cbn [map_set]; [constructor; [assumption|constructor]|].
    destruct (bcmp k k1); repeat (constructor; try assumption).
  Qed.
  Lemma live_get : forall k (ch : list (bytes * acc)) c, Forall (fun kc => live (snd kc)) ch -> map_get k ch = Some c -> live c.
  Proof.
    intros k ch c H. induction H as [|[k1 c1] ch H1 H IH]; cbn [map_get]; [discriminate|]. destruct (beqb k k1); [|exact IH].
    intros E. injection E as <-. exact H1.
  Qed.
  Lemma live_write : forall v, (forall a, live a -> live (write v a)) /\ live (write v (new_acc v)).
  Proof.
    induction v as [ |b|z|f|s|s|l IH|m IH] using gval_ind2.
    - split; [|constructor]. intros a H. destruct H; cbn; constructor; assumption.
    - split; [|constructor]. intros a H. destruct H; cbn; constructor; assumption.
    - split; [intros a H; apply live_num; assumption|]. cbn [new_acc write write_num]. change sk32 with (sk_of []). rewrite sk_of_snoc. constructor. discriminate.
    - split; [intros a H; apply live_num; assumption|]. cbn [new_acc write write_num]. change sk32 with (sk_of []). rewrite sk_of_snoc. constructor. discriminate.
    - split; [|constructor]. intros a H. destruct H; cbn; constructor; assumption.
    - split; [|constructor]. intros a H. destruct H; cbn; constructor; assumption.
    - assert (G : forall ch, Forall live ch -> live (write (VArr l) (AArr ch))).
      { intros ch H. cbn [write]. constructor. revert ch H. induction IH as [|x l [IHa IHn] IH IHl]; intros ch H; [assumption|].
        destruct H as [|c ch Hc H]; constructor; auto. }
      split; [|apply G; constructor]. intros a H. destruct H; try (cbn [write]; constructor; assumption). apply G. assumption.
    - assert (G : forall ch, Forall (fun kc => live (snd kc)) ch -> live (write (VMap m) (AObj ch))).
      { intros ch H. cbn [write]. constructor. revert ch H. induction IH as [|[k x] m [IHa IHn] IH IHm]; intros ch H; [assumption|].
        apply IHm. apply live_set; [|assumption]. destruct (map_get k ch) as [c|] eqn:E; [apply IHa; eapply live_get; eassumption|exact IHn]. }
      split; [|apply G; constructor]. intros a H. destruct H; try (cbn [write]; constructor; assumption). apply G. assumption.
  Qed.
  Fixpoint live_close (a : acc) (H : live a) {struct H} : exists a', close a = Ok a' /\ live a'.
  Proof.
    destruct H as [c|c t f|c mn mx mean med d h xs Hx|c mn mx u f seen|ch H|ch H].
    - eexists. split; [reflexivity|constructor].
    - eexists. split; [reflexivity|constructor].
    - destruct (sketch_some xs Hx) as [bins [freqs [m [E1 [E2 _]]]]]. cbn [M_Stats.close]. rewrite E2, E1. eexists. split; [reflexivity|]. constructor. assumption.
    - eexists. split; [reflexivity|constructor].
    - assert (G : exists ch', (fix go (ch : list (bytes * acc)) : res (list (bytes * acc)) :=
          match ch with
          | [] => Ok []
          | (k, c) :: r => match close c with
                           | Ok c' => match go r with Ok r' => Ok ((k, c') :: r') | _ => Panic end
                           | _ => Panic
                           end
          end) ch = Ok ch' /\ Forall (fun kc => live (snd kc)) ch').
      { induction H as [|[k c] ch Hc H IH]; [eexists; split; [reflexivity|constructor]|]. destruct (live_close c Hc) as [c' [-> L]]. destruct IH as [ch' [-> HF]].
        eexists. split; [reflexivity|]. constructor; assumption. }
      destruct G as [ch' [E HF]]. eexists. cbn [M_Stats.close]. rewrite E. split; [reflexivity|constructor; assumption].
    - assert (G : exists ch', (fix go (ch : list acc) : res (list acc) :=
          match ch with
          | [] => Ok []
          | c :: r => match close c with
                      | Ok c' => match go r with Ok r' => Ok (c' :: r') | _ => Panic end
                      | _ => Panic
                      end
          end) ch = Ok ch' /\ Forall live ch').
      { induction H as [|c ch Hc H IH]; [eexists; split; [reflexivity|constructor]|]. destruct (live_close c Hc) as [c' [-> L]]. destruct IH as [ch' [-> HF]].
        eexists. split; [reflexivity|]. constructor; assumption. }
      destruct G as [ch' [E HF]]. eexists. cbn [M_Stats.close]. rewrite E. split; [reflexivity|constructor; assumption].
  Qed.
  Definition alive (a : option acc) : Prop := match a with Some a => live a | None => True end.
  Lemma alive_fold : forall vs a, alive a -> alive (fold_left (fun a v => write_entry v a) vs a).
  Proof.
    induction vs as [|v vs IH]; intros a H; [assumption|]. cbn [fold_left]. apply IH. unfold write_entry. destruct a as [a|]; [apply live_write; assumption|apply live_write].
  Qed.
  Lemma alive_close : forall a, alive a -> exists a', close_all a = Ok a' /\ alive a'.
  Proof.
    intros [a|] H; [|exists None; split; [reflexivity|exact I]]. destruct (live_close a H) as [a' [E L]]. exists (Some a'). cbn [M_Stats.close_all]. rewrite E. split; [reflexivity|assumption].
  Qed.
End Live.

(** An integer and its float count alike. *)
Fixpoint counts_new (v v' : val) (H : counts_as v v') {struct H} : new_acc v = new_acc v'.
Proof. destruct H; reflexivity. Qed.
Fixpoint counts_write (v v' : val) (H : counts_as v v') {struct H} : forall a, write v a = write v' a.
Proof.
  destruct H as [v|z|z|l l' H|m m' H]; intros a; try reflexivity.
  - destruct a as [ | | | | |ch]; try reflexivity. cbn [write]. f_equal. revert ch. induction H as [|x y l l' Hx H IH]; intros ch; [reflexivity|].
    destruct ch as [|c ch]; [rewrite (counts_new x y Hx), (counts_write x y Hx), IH; reflexivity|]. rewrite (counts_write x y Hx), IH. reflexivity.
  - destruct a as [ | | | |ch| ]; try reflexivity. cbn [write]. f_equal. revert ch. induction H as [|[k x] [k' y] m m' [Hk Hx] H IH]; intros ch; [reflexivity|].
    cbn [fst snd] in Hk, Hx. subst k'. rewrite (counts_new x y Hx), (counts_write x y Hx), IH. reflexivity.
Qed.
Lemma counts_fold : forall vs vs', Forall2 counts_as vs vs' -> forall a, fold_left (fun a v => write_entry v a) vs a = fold_left (fun a v => write_entry v a) vs' a.
Proof.
  induction 1 as [|v v' vs vs' Hv H IH]; intros a; [reflexivity|]. cbn [fold_left]. rewrite IH. unfold write_entry. rewrite (counts_new v v' Hv), (counts_write v v' Hv). reflexivity.
Qed.
