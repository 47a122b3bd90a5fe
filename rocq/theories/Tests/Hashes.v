(** SipHash 1-3 of 0, 1, 2 .. compared with Python 3.11, whose [hash] of bytes is
    the same function when PYTHONHASHSEED is 0. *)
From Verif.Model Require Import Hasher.

Definition counting (n : nat) : bytes := map (fun k => Z.of_nat k mod 256) (seq 0 n).
Example siphash_python : map (fun n => siphash13 0 0 (counting n)) [1; 2; 3; 7; 8; 9; 15; 16; 17; 24; 48; 72; 200; 255; 256]%nat
  = [0x68a914128e01e473; 0x10bac45c41e3669; 0x4d4c9a4a8ef6e0ad; 0x2f098ab0c751325a; 0xead411e67ebe2eea; 0x75927f9d95124362; 0xf30eb725bb91c9ea; 0x8972188433a5c5b7; 0x4883c49a2c009c1d; 0x31185a47af932f3a; 0xfe1f2445ba50237f; 0x4bde5b7ae0e11c2; 0x7176378efd9e8a23; 0x5dc1f93ea135eb43; 0x31ae646afba70308].
Proof. vm_compute. reflexivity. Qed.
