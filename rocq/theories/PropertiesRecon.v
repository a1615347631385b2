(* PROPERTY C64: formatting elements are reopened where the standard says, although the engine only looks when a flag is set *)
From Coq Require Import List Arith Bool String Lia.
From Verif Require Import Str.
From Verif Require Import AaaModel AaaSpec ReconModel ReconSpec ReconProofs ReconProofs2 ReconProofs3.
Import ListNotations.
Open Scope string_scope. Open Scope list_scope. Open Scope nat_scope.

(* when it does run, from any state at all, the engine's loop over slots (some of them retired) is the standard's algorithm on the list: the same elements for the
   same tokens in the same parents, the same stack and the same list afterwards; it never raises *)
Theorem C64_reconstruct : forall s, exists s', reconstruct s = Some s' /\ dirty s' = false /\ seen s' = std_reconstruct (seen s).
Proof. exact reconstruct_ok. Qed.
Print Assumptions C64_reconstruct.

(* every history: what the engine builds with its flag is what a parser that reconstructs every time it is told to builds *)
Theorem C64_lazy_partial : forall evs s, at_start s -> all_can evs (seen s) -> exists s', rrun evs s = Some s' /\ seen s' = srun evs (seen s).
Proof. intros evs s H. apply run_ok. now apply start_good. Qed.
Print Assumptions C64_lazy_partial.

(* after any such history the flag, when clear, means there is nothing to reopen: reconstructing would change nothing *)
Theorem C64_clear_flag_means_open : forall evs s s', at_start s -> all_can evs (seen s) -> rrun evs s = Some s' -> dirty s' = false -> std_reconstruct (seen s') = seen s'.
Proof.
  intros evs s s' H C R D. assert (G : good s').
  { clear D. revert s H C R. assert (K : forall evs s, good s -> all_can evs (seen s) -> rrun evs s = Some s' -> good s').
    { clear. induction evs as [|e evs IH]; intros s G C R; [injection R as <-; exact G|]. destruct C as [C CS]. cbn [rrun] in R. destruct (step_ok e s G C) as (s1 & E & V & G1). rewrite E in R.
      rewrite <- V in CS. exact (IH s1 G1 CS R). }
    intros s H C R. exact (K evs s (start_good s H) C R). }
  destruct (if_dirty_ok s' G) as (s2 & E & V & _). unfold if_dirty in E. rewrite D in E. injection E as <-. now symmetry.
Qed.
Print Assumptions C64_clear_flag_means_open.

Definition start : rst := RSt [0; 1] [] false 2 [].
Example C64_example_start : at_start start.
Proof. repeat split; cbn; [|intros x [<-|[<-|[]]]; lia]. repeat constructor; cbn; intuition discriminate. Qed.

(* <p><b><i>x</p>y<table><td><u>z</td></table></i>w : the b and the i are reopened for y, in a cell nothing is, and after it the same i is current *)
Definition sample : list event :=
  [EOpen false; EFormat (u "b") 1; EFormat (u "i") 2; EText false; EClose 2; EText false; EOpen false; EOpen false; EMarker; EFormat (u "u") 3; EText false; EClear 5; EClose 4; EEnd (u "i"); EText false].
Example C64_example_history : all_can sample (seen start)
  /\ option_map done (rrun sample start) = Some
     [Create 2 [] 0 1; Create 3 (u "b") 1 2; Create 4 (u "i") 2 3; Text 4; Create 5 (u "b") 1 1; Create 6 (u "i") 2 5; Text 6; Create 7 [] 0 6; Create 8 [] 0 7;
      Create 9 (u "u") 3 8; Text 9; Text 5].
Proof.
  split; [|vm_compute; reflexivity]. cbn [all_can sample]. repeat (split; [first [exact I|vm_compute; intros E; discriminate E|idtac]|]); try exact I.
  - (* EClear *) vm_compute. intros x n t [H|[H|[]]] _; injection H as <- _ _; auto 8.
  - (* EEnd *) exists (u "i"), 2. vm_compute. reflexivity.
Qed.

(* Finding: text inside a template clears the flag, and the end of the template leaves it clear.  <p><b></p><template>t</template>x : x is not bold *)
Definition after_template : list event := [EOpen false; EFormat (u "b") 1; EClose 2; EOpen false; EMarker; EText false; ETemplateEnd 2; EText false].
Theorem C64_template_refuted :
  ~ (forall evs s, at_start s -> (forall e, In e evs -> match e with EAdopt _ _ _ | EEnd _ | ENoah _ | EPlainPop | EClear _ => False | EText c => c = false | _ => True end) ->
     exists s', rrun evs s = Some s' /\ seen s' = srun evs (seen s)).
Proof.
  intros H. destruct (H after_template start C64_example_start) as (s' & E & V).
  - cbn. intros e [<-|[<-|[<-|[<-|[<-|[<-|[<-|[<-|[]]]]]]]]]; reflexivity || exact I.
  - assert (K : option_map done (rrun after_template start) <> Some (s_done (srun after_template (seen start)))) by (vm_compute; discriminate).
    apply K. rewrite E, <- V. reflexivity.
Qed.
Print Assumptions C64_template_refuted.
Example C64_template_what_happens : option_map done (rrun after_template start) = Some [Create 2 [] 0 1; Create 3 (u "b") 1 2; Create 4 [] 0 1; Text 4; Text 1]
  /\ s_done (srun after_template (seen start)) = [Create 2 [] 0 1; Create 3 (u "b") 1 2; Create 4 [] 0 1; Text 4; Create 5 (u "b") 1 1; Text 5].
Proof. vm_compute. split; reflexivity. Qed.

(* Finding: text directly in a caption is never put back in its formatting elements.  <table><caption><p><b></p>x : x is not bold *)
Definition in_caption : list event := [EOpen false; EOpen false; EMarker; EOpen false; EFormat (u "b") 1; EClose 4; EText true].
Theorem C64_caption_refuted :
  ~ (forall evs s, at_start s -> (forall e, In e evs -> match e with EAdopt _ _ _ | EEnd _ | ENoah _ | EPlainPop | EClear _ | ETemplateEnd _ => False | _ => True end) ->
     exists s', rrun evs s = Some s' /\ seen s' = srun evs (seen s)).
Proof.
  intros H. destruct (H in_caption start C64_example_start) as (s' & E & V).
  - cbn. intros e [<-|[<-|[<-|[<-|[<-|[<-|[<-|[]]]]]]]]; exact I.
  - assert (K : option_map done (rrun in_caption start) <> Some (s_done (srun in_caption (seen start)))) by (vm_compute; discriminate).
    apply K. rewrite E, <- V. reflexivity.
Qed.
Print Assumptions C64_caption_refuted.

(* Finding: when the adoption agency leaves the list out of order (C62_bookmark_refuted) the flag can be clear with an element to reopen.  <b><i>, nine <div>, x</b>, nine </div>, y</i>z :
   the list is b, i with only i open; y reopens nothing and clears the flag; </i> pops i; z should be bold.  The event EAdopt below stands for </b> and the nine </div> *)
Definition out_of_order : list event := [EFormat (u "b") 1; EFormat (u "i") 2; EAdopt 2 [0; 1; 4] [Some (Entry 5 (u "b") 1 true); Some (Entry 4 (u "i") 2 true)]; EText false; EEnd (u "i"); EText false].
Theorem C64_order_refuted :
  ~ (forall evs s, at_start s -> (forall e, In e evs -> match e with EAdopt used st ac => NoDup st /\ NoDup (nodes (live ac)) | ENoah _ | EPlainPop | EClear _ | ETemplateEnd _ => False | EText c => c = false | _ => True end) ->
     exists s', rrun evs s = Some s' /\ seen s' = srun evs (seen s)).
Proof.
  intros H. destruct (H out_of_order start C64_example_start) as (s' & E & V).
  - cbn. intros e [<-|[<-|[<-|[<-|[<-|[<-|[]]]]]]]; try exact I; try reflexivity. split; repeat constructor; cbn; intuition discriminate.
  - assert (K : option_map done (rrun out_of_order start) <> Some (s_done (srun out_of_order (seen start)))) by (vm_compute; discriminate).
    apply K. rewrite E, <- V. reflexivity.
Qed.
Print Assumptions C64_order_refuted.
