(** The calls that have no error result never give one: a syntactic argument,
    used for the error codes of key generation. *)
From Verif Require Import GoBase Util Float Samplerz Fft Ntrugen Ntt Falcon Params Ffsampling KeyGen.

Definition noerr {A} (r : res A) : Prop := forall e, r <> Err e.

Lemma noerr_Ok {A} (a : A) : noerr (Ok a). Proof. discriminate. Qed.
Lemma noerr_Panic {A} : noerr (@Panic A). Proof. discriminate. Qed.
Lemma noerr_Diverge {A} : noerr (@Diverge A). Proof. discriminate. Qed.
Lemma noerr_bind {A B} (m : res A) (k : A -> res B) :
  noerr m -> (forall a, noerr (k a)) -> noerr (bind m k).
Proof. intros H K e E. destruct m; cbn in E; try discriminate; [exact (K _ _ E)|exact (H _ eq_refl)]. Qed.
Lemma noerr_mapM {A B} (f : A -> res B) l : (forall a, noerr (f a)) -> noerr (mapM f l).
Proof.
  intros H. induction l as [|a l IH]; [apply noerr_Ok|].
  cbn [mapM]. apply noerr_bind; [apply H|intros b]. apply noerr_bind; [exact IH|intros bs]. apply noerr_Ok.
Qed.
Lemma noerr_foldM {A B} (f : A -> B -> res A) l : (forall a b, noerr (f a b)) -> forall a, noerr (foldM f l a).
Proof.
  intros H. induction l as [|b l IH]; intros a; [apply noerr_Ok|].
  cbn [foldM]. apply noerr_bind; [apply H|exact IH].
Qed.
Lemma noerr_idx {A} (l : list A) i : noerr (idx l i).
Proof. unfold idx. destruct (nth_error l i); [apply noerr_Ok|apply noerr_Panic]. Qed.

Create HintDb noerr.
#[export] Hint Resolve noerr_Ok noerr_Panic noerr_Diverge noerr_idx : noerr.
Ltac ne := repeat first
  [ progress intros
  | solve [auto with noerr]
  | apply noerr_bind | apply noerr_mapM | apply noerr_foldM
  | match goal with |- noerr (if ?b then _ else _) => destruct b end
  | match goal with |- noerr (let (_, _) := ?p in _) => destruct p end
  | match goal with |- noerr (match ?x with _ => _ end) => destruct x end ].

Lemma noerr_Pmod a b : noerr (Pmod a b). Proof. unfold Pmod. ne. Qed.
Lemma noerr_SplitPolys {A} (f : list A) : noerr (SplitPolys f). Proof. unfold SplitPolys. ne. Qed.
Lemma noerr_MergePolys {A} (f g : list A) : noerr (MergePolys f g). Proof. unfold MergePolys. ne. Qed.
#[export] Hint Resolve noerr_Pmod noerr_SplitPolys noerr_MergePolys : noerr.

Lemma noerr_NTT iw f : noerr (NTT iw f).
Proof.
  unfold NTT. generalize (S (length f)). intros fuel. revert f.
  induction fuel as [|fuel IH]; intros f; cbn [NTT_fuel]; [ne|]. unfold MergeNTT. cbv zeta. ne.
Qed.

Section NoErr.
Context (FO : floats) (roots : nat -> list (cplx FO)).

Lemma noerr_zipM {A B C} (op : A -> B -> C) f g : noerr (zipM op f g). Proof. unfold zipM. ne. Qed.
Hint Resolve noerr_zipM : noerr.
Lemma noerr_SplitFFT f : noerr (SplitFFT FO roots f). Proof. unfold SplitFFT. ne. Qed.
Lemma noerr_MergeFFT f g : noerr (MergeFFT FO roots f g). Proof. unfold MergeFFT. cbv zeta. ne. Qed.
Hint Resolve noerr_SplitFFT noerr_MergeFFT : noerr.
Lemma noerr_FFT f : noerr (FFT FO roots f).
Proof.
  unfold FFT. generalize (S (length f)). intros fuel. revert f.
  induction fuel as [|fuel IH]; intros f; cbn [FFT_fuel]; [ne|]. cbv zeta. ne.
Qed.
Lemma noerr_IFFT f : noerr (IFFT FO roots f).
Proof.
  unfold IFFT. generalize (S (length f)). intros fuel. revert f.
  induction fuel as [|fuel IH]; intros f; cbn [IFFT_fuel]; ne.
Qed.
Hint Resolve noerr_FFT noerr_IFFT : noerr.
Lemma noerr_Add f g : noerr (Add FO f g). Proof. unfold Add. ne. Qed.
Lemma noerr_AddFFT f g : noerr (AddFFT FO f g). Proof. unfold AddFFT. ne. Qed.
Lemma noerr_DivFFT f g : noerr (DivFFT FO f g). Proof. unfold DivFFT. ne. Qed.
Lemma noerr_MulFFT f g : noerr (MulFFT FO f g). Proof. unfold MulFFT. ne. Qed.
Hint Resolve noerr_Add noerr_AddFFT noerr_DivFFT noerr_MulFFT : noerr.
Lemma noerr_SubFFT f g : noerr (SubFFT FO f g). Proof. unfold SubFFT. ne. Qed.
Lemma noerr_Adj f : noerr (Adj FO roots f). Proof. unfold Adj. ne. Qed.
Lemma noerr_Mul f g : noerr (Mul FO roots f g). Proof. unfold Mul. ne. Qed.
Lemma noerr_Div f g : noerr (Div FO roots f g). Proof. unfold Div. ne. Qed.
Hint Resolve noerr_SubFFT noerr_Adj noerr_Mul noerr_Div : noerr.

Lemma noerr_idx2 {A} (m : list (list A)) i j : noerr (idx2 m i j). Proof. unfold idx2. ne. Qed.
Hint Resolve noerr_idx2 : noerr.
Lemma noerr_Gram B : noerr (Gram FO roots B). Proof. unfold Gram. cbv zeta. ne. Qed.
Lemma noerr_LdlFFT G : noerr (LdlFFT FO G). Proof. unfold LdlFFT. cbv zeta. ne. Qed.
Hint Resolve noerr_LdlFFT : noerr.
Lemma noerr_FfldlFFT fuel : forall T G, noerr (FfldlFFT FO roots fuel T G).
Proof. induction fuel as [|fuel IH]; intros T G; cbn [FfldlFFT]; [ne|]. cbv zeta. ne. Qed.
End NoErr.
#[export] Hint Resolve noerr_FFT noerr_IFFT noerr_Add noerr_AddFFT noerr_DivFFT noerr_MulFFT noerr_SubFFT
  noerr_Adj noerr_Mul noerr_Div noerr_idx2 noerr_Gram noerr_LdlFFT noerr_FfldlFFT noerr_NTT : noerr.

Lemma noerr_reduce_quotient FO a b c d : noerr (reduce_quotient FO a b c d).
Proof. unfold reduce_quotient, reduce_quotient_at. ne. Qed.
Lemma noerr_GsNorm FO f g q : noerr (GsNorm FO f g q).
Proof. unfold GsNorm, GsNorm_at, BiggestFloat64. cbv zeta. ne. Qed.
Lemma noerr_berexp FO x c l : noerr (berexp FO x c l).
Proof. unfold berexp. cbv zeta. ne. Qed.
#[export] Hint Resolve noerr_reduce_quotient noerr_GsNorm noerr_berexp : noerr.
Lemma noerr_sampler_loop FO rb fuel s r dss ccs : forall k, noerr (sampler_loop FO rb fuel s r dss ccs k).
Proof.
  induction fuel as [|fuel IH]; intros k; cbn [sampler_loop]; [ne|].
  unfold generateAndSplitRandBytes, sampler_round. cbv zeta. ne.
Qed.
Lemma noerr_Samplerz FO rb fuel mu sigma sigmin k : noerr (Samplerz FO rb fuel mu sigma sigmin k).
Proof. apply noerr_sampler_loop. Qed.
#[export] Hint Resolve noerr_Samplerz : noerr.
Lemma noerr_samples FO rb fuel m : forall k, noerr (samples FO rb fuel m k).
Proof. induction m as [|m IH]; intros k; cbn [samples]; ne. Qed.
#[export] Hint Resolve noerr_samples : noerr.
Lemma noerr_GenPoly FO rb fuel n c : noerr (GenPoly FO rb fuel n c).
Proof. unfold GenPoly. ne. Qed.
#[export] Hint Resolve noerr_GenPoly : noerr.
Lemma noerr_NtruGen iw FO quo rb sf rf fuel n : forall c, noerr (NtruGen iw FO quo rb sf rf fuel n c).
Proof. induction fuel as [|fuel IH]; intros c; cbn [NtruGen]; [ne|]. ne. Qed.
#[export] Hint Resolve noerr_NtruGen : noerr.
Lemma noerr_normalizeTree FO t s : noerr (normalizeTree FO t s).
Proof. unfold normalizeTree, normalize_leaf. ne. Qed.
Lemma noerr_basisAndMatrix FO tf f g F G : noerr (basisAndMatrix FO tf f g F G).
Proof. unfold basisAndMatrix, fft3D. cbv zeta. ne. Qed.
#[export] Hint Resolve noerr_normalizeTree noerr_basisAndMatrix : noerr.
Lemma noerr_falcon_data iw FO tf n f g F G : noerr (falcon_data iw FO tf n f g F G).
Proof. unfold falcon_data. cbv zeta. ne. Qed.
#[export] Hint Resolve noerr_falcon_data : noerr.
