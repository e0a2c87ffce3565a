(* TreeEdit_proofs3.v -- taking a tree apart while walking over it *)
From Verif Require Import Base PyText Rose Maps_model Maps_proofs Tree_model Tree_spec Tree_proofs TreeEdit_spec TreeEdit_proofs TreeEdit_proofs2.
From Coq Require Import Permutation.

Section Unlink.
  Variable h0 : list node.
  Variable ns : list addr.
  Hypothesis N : NoDup ns.
  Hypothesis first : parents_first h0 ns.

  Record half (past : list addr) (h : list node) (seen : list addr) : Prop := {
    hf_seen : seen = past;
    hf_range : forall m, In m ns -> (m < length h)%nat;
    hf_keys : forall m, In m ns -> NoDup (dkeys (children (at_ h m)));
    hf_parent : forall m p, In m ns -> parent (at_ h m) = Some p -> In p ns /\ In m (below h0 p) /\ dget (label (at_ h m)) (children (at_ h p)) = Some m;
    hf_child : forall p k c, In p ns -> dget k (children (at_ h p)) = Some c -> In c ns /\ parent (at_ h c) = Some p /\ label (at_ h c) = k;
    hf_past : forall m, In m past -> parent (at_ h m) = None }.

  Lemma half_step past n rest h s : ns = past ++ n :: rest -> half past h s ->
    exists h', unlinking h s n = (h', s ++ [n], Ok None) /\ half (past ++ [n]) h' (s ++ [n]) /\ (forall m, In m (n :: rest) -> below h' m = below h m).
  Proof.
    intros EN [Sn Rg Nk Pa Ch Ps]; unfold unlinking, unlink.
    assert (Jn : In n ns) by (rewrite EN; apply in_or_app; right; left; reflexivity).
    assert (Out : forall h1 m, (n < length h1)%nat -> at_ (put h1 n (set_parent (at_ h1 n) None)) m = if Nat.eq_dec n m then set_parent (at_ h1 n) None else at_ h1 m).
    { intros h1 m Ln; destruct (Nat.eq_dec n m) as [<-|D]; [apply at_put_same; exact Ln | apply at_put_other; exact D]. }
    pose proof (Rg n Jn) as Ln.
    assert (past_ns : forall m, In m past -> In m ns) by (intros m I; rewrite EN; apply in_or_app; left; exact I).
    destruct (parent (at_ h n)) as [p|] eqn:Pn.
    - destruct (Pa n p Jn Pn) as [Jp [Jb Dg]].
      assert (Tr : truth h p = true) by (unfold truth; destruct (children (at_ h p)); [discriminate | reflexivity]); rewrite Tr, Dg.
      set (h1 := put h p (set_children (at_ h p) (ddel (label (at_ h n)) (children (at_ h p))))).
      assert (Ln1 : length h1 = length h) by apply length_put.
      assert (At1 : forall m, at_ h1 m = if Nat.eq_dec p m then set_children (at_ h p) (ddel (label (at_ h n)) (children (at_ h p))) else at_ h m).
      { intros m; unfold h1; destruct (Nat.eq_dec p m) as [<-|D]; [apply at_put_same, Rg; exact Jp | apply at_put_other; exact D]. }
      assert (Lb : forall m, label (at_ (put h1 n (set_parent (at_ h1 n) None)) m) = label (at_ h m)).
      { intros m; rewrite Out by (rewrite Ln1; exact Ln); destruct (Nat.eq_dec n m) as [<-|D]; cbn [set_parent label]; rewrite At1;
          [destruct (Nat.eq_dec p n) as [<-|D'] | destruct (Nat.eq_dec p m) as [<-|D']]; reflexivity. }
      assert (Pr : forall m, parent (at_ (put h1 n (set_parent (at_ h1 n) None)) m) = if Nat.eq_dec n m then None else parent (at_ h m)).
      { intros m; rewrite Out by (rewrite Ln1; exact Ln); destruct (Nat.eq_dec n m) as [<-|D]; [reflexivity|]; rewrite At1; destruct (Nat.eq_dec p m) as [<-|D']; reflexivity. }
      assert (Kd : forall m, children (at_ (put h1 n (set_parent (at_ h1 n) None)) m) = if Nat.eq_dec p m then ddel (label (at_ h n)) (children (at_ h p)) else children (at_ h m)).
      { intros m; rewrite Out by (rewrite Ln1; exact Ln); destruct (Nat.eq_dec n m) as [<-|D]; cbn [set_parent children]; rewrite At1;
          [destruct (Nat.eq_dec p n) as [<-|D'] | destruct (Nat.eq_dec p m) as [<-|D']]; reflexivity. }
      set (h2 := put h1 n (set_parent (at_ h1 n) None)) in *.
      exists h2; split; [reflexivity|split].
      + constructor.
        * rewrite Sn; reflexivity.
        * intros m Jm; unfold h2; rewrite length_put, Ln1; apply Rg; exact Jm.
        * intros m Jm; rewrite Kd; destruct (Nat.eq_dec p m) as [_|D]; [apply NoDup_ddel, Nk; exact Jp | apply Nk; exact Jm].
        * intros m q Jm Pm; rewrite Pr in Pm; destruct (Nat.eq_dec n m) as [_|D]; [discriminate|].
          destruct (Pa m q Jm Pm) as [Jq [Jb' Dm]]; split; [exact Jq|split; [exact Jb'|]]; rewrite Lb, Kd.
          destruct (Nat.eq_dec p q) as [<-|D']; [|exact Dm].
          rewrite dget_ddel by (apply Nk; exact Jp); destruct (eqb_spec (label (at_ h m)) (label (at_ h n))) as [X|X]; [|exact Dm].
          rewrite X, Dg in Dm; congruence.
        * intros q k c Jq Dc; rewrite Kd in Dc; rewrite Lb, Pr; destruct (Nat.eq_dec p q) as [<-|D'].
          -- rewrite dget_ddel in Dc by (apply Nk; exact Jp); destruct (eqb_spec k (label (at_ h n))) as [X|X]; [discriminate|].
             destruct (Ch p k c Jp Dc) as [Jc [Pc Lc]]; destruct (Nat.eq_dec n c) as [<-|_]; [congruence|]; repeat split; assumption.
          -- destruct (Ch q k c Jq Dc) as [Jc [Pc Lc]]; destruct (Nat.eq_dec n c) as [<-|_]; [congruence|]; repeat split; assumption.
        * intros m I; rewrite Pr; destruct (Nat.eq_dec n m) as [_|D]; [reflexivity|].
          apply in_app_or in I; destruct I as [I|[I|[]]]; [apply Ps; exact I | congruence].
      + intros m Jm; unfold below; rewrite Kd; destruct (Nat.eq_dec p m) as [<-|D]; [|reflexivity]; exfalso.
        destruct (first p n Jp Jb) as [x [y [z E]]].
        assert (E' : exists q, past = x ++ p :: q).
        { rewrite EN in E; clear - N EN E; revert E; replace (x ++ p :: y ++ n :: z) with ((x ++ p :: y) ++ n :: z) by (rewrite <- app_assoc; reflexivity).
          intros E; rewrite EN in N; clear EN; exists y; revert past N E; induction (x ++ p :: y) as [|w q IH]; intros [|v l1] N E; cbn [app] in *.
          - reflexivity.
          - injection E as -> E; inversion N; subst; exfalso; apply H1; apply in_or_app; right; left; reflexivity.
          - injection E as -> E; inversion N; subst; exfalso; apply H1; apply in_or_app; right; left; reflexivity.
          - injection E as -> E; inversion N; subst; f_equal; apply IH; assumption. }
        destruct E' as [q ->]; rewrite EN in N; rewrite <- app_assoc in N; apply NoDup_remove_2 in N; apply N.
        apply in_or_app; right; cbn [app]; apply in_or_app; right; exact Jm.
    - exists (put h n (set_parent (at_ h n) None)); split; [reflexivity|].
      assert (Pr : forall m, parent (at_ (put h n (set_parent (at_ h n) None)) m) = if Nat.eq_dec n m then None else parent (at_ h m)).
      { intros m; rewrite Out by exact Ln; destruct (Nat.eq_dec n m); reflexivity. }
      assert (Lb : forall m, label (at_ (put h n (set_parent (at_ h n) None)) m) = label (at_ h m)).
      { intros m; rewrite Out by exact Ln; destruct (Nat.eq_dec n m) as [<-|]; reflexivity. }
      assert (Kd : forall m, children (at_ (put h n (set_parent (at_ h n) None)) m) = children (at_ h m)).
      { intros m; rewrite Out by exact Ln; destruct (Nat.eq_dec n m) as [<-|]; reflexivity. }
      split; [constructor|].
      + rewrite Sn; reflexivity.
      + intros m Jm; rewrite length_put; apply Rg; exact Jm.
      + intros m Jm; rewrite Kd; apply Nk; exact Jm.
      + intros m q Jm Pm; rewrite Pr in Pm; destruct (Nat.eq_dec n m) as [_|D]; [discriminate|]; rewrite Lb, Kd; apply Pa; assumption.
      + intros q k c Jq Dc; rewrite Kd in Dc; destruct (Ch q k c Jq Dc) as [Jc [Pc Lc]]; rewrite Lb, Pr.
        destruct (Nat.eq_dec n c) as [<-|_]; [congruence|]; repeat split; assumption.
      + intros m I; rewrite Pr; destruct (Nat.eq_dec n m) as [_|D]; [reflexivity|].
        apply in_app_or in I; destruct I as [I|[I|[]]]; [apply Ps; exact I | congruence].
      + intros m _; unfold below; rewrite Kd; reflexivity.
  Qed.
  Lemma half_done h s : half ns h s -> forall m, In m ns -> parent (at_ h m) = None /\ children (at_ h m) = [].
  Proof.
    intros [_ _ _ _ Ch Ps] m Jm; split; [apply Ps; exact Jm|].
    destruct (children (at_ h m)) as [|[k c] l] eqn:E; [reflexivity|exfalso].
    destruct (Ch m k c Jm) as [Jc [Pc _]]; [rewrite E; cbn [dget]; rewrite eqb_refl; reflexivity|].
    rewrite (Ps c Jc) in Pc; discriminate.
  Qed.
End Unlink.

Lemma linked_tree h t : forall par, linked h par t -> tree_at h t.
Proof.
  induction t as [x ks IH] using rose_rec_ind; intros par L; inversion L; subst; constructor.
  - rewrite H4; unfold dvals; rewrite map_map; reflexivity.
  - rewrite Forall_forall in *; intros k I; apply (IH k I (Some x)), H5, I.
Qed.
Lemma linked_nodes h t : forall par, linked h par t -> forall m, In m (nodes t) ->
  NoDup (dkeys (children (at_ h m))) /\
  (m = root t /\ parent (at_ h m) = par \/ exists p, In p (nodes t) /\ parent (at_ h m) = Some p /\ In m (below h p) /\ dget (label (at_ h m)) (children (at_ h p)) = Some m) /\
  (forall k c, dget k (children (at_ h m)) = Some c -> In c (nodes t) /\ parent (at_ h c) = Some m /\ label (at_ h c) = k).
Proof.
  induction t as [x ks IH] using rose_rec_ind; intros par L m I; inversion L as [? ? ? Pp Nk Kd Fk]; subst.
  rewrite Forall_forall in IH, Fk; cbn [nodes] in I; destruct I as [<-|I].
  - split; [exact Nk|split; [left; split; reflexivity|]].
    intros k c D; apply dget_In in D; rewrite Kd in D; apply in_map_iff in D; destruct D as [j [X Ij]]; injection X as <- <-.
    split; [right; apply in_flat_map; exists j; split; [exact Ij | destruct j; left; reflexivity]|split; [|reflexivity]].
    pose proof (Fk j Ij) as Lj; inversion Lj; subst; assumption.
  - apply in_flat_map in I; destruct I as [j [Ij I]]; destruct (IH j Ij _ (Fk j Ij) m I) as [A [B C]].
    split; [exact A|split].
    + right; destruct B as [[-> Pm]|[p [Ip [Pm [Bm Dm]]]]].
      * exists x; split; [left; reflexivity|split; [exact Pm|split]].
        -- unfold below; rewrite Kd; unfold dvals; rewrite map_map; apply in_map_iff; exists j; split; [reflexivity | exact Ij].
        -- apply In_dget; [exact Nk|]; rewrite Kd; apply in_map_iff; exists j; split; [reflexivity | exact Ij].
      * exists p; split; [right; apply in_flat_map; exists j; split; assumption | repeat split; assumption].
    + intros k c D; destruct (C k c D) as [Jc X]; split; [right; apply in_flat_map; exists j; split; assumption | exact X].
Qed.
