(** Example keys, of 2048 bits and of 130 bits. *)
From Verif Require Import Base RsaKeyModel.

Definition key2048 : rsa_key := {|
  key_N := 0xc4b85f68221daf01857120b8f07ee12c71219ffa5e0e2b3f662b3c239a6327db17ad599b8f1e5d67e73237b2962d359c6fd03e0c0872e7a2e2d597dc4178139c03b1f45278255c0c80d41462964c8b340631e221f7c908edd17462f71011807d2af6dd158cf5ed8b86369621e7dd1eefe1fbe9c6dd6b21510b4a93277f985f37a7426708c599facef524a0e9b7b4718e3ae49868bf262e89ba1a49533524cc020b3e5ad31284aba0a51980077758ce0fdc54718f7174034d98b0f45c78a50095538ba7a8dff42ed8b8dcd431445eea8b3f156e4d1a86fcb0f953d9c0609fe3c1ddedb05261583edcf1b446066fe0424bd395d2ddf5fdf6427044bc6e4fbb24d9;
  key_E := 0x10001;
  key_D := 0x750d901792553f511469e022ab5793fcb1c46440c1be849550e1e102fe5689dca01611ffb2054b670bf6a195ae2e707c093c4bef3507ca34edec525448d07e3a93284c4cd618c4d0dbc755e9e3ace017b0a7f5fa684a42f9df6bf587351474f405a0a6a4b01f959d33db3f32259939535b905de66ad1d81d352ec6a8f60f6077de060d90074c0d4c8ab6b53f0226eb567dc625464e6a69f83c8d1e473e68221f214b8b652b2b79b53524d429bc4db1e210a75aaf724939aa972616323e3771f701500e7b41a05030180c12203f62918cb7646a0290ff2e47f92997b6e711da90bcdd0c34a42defe53c40d7aa035d56476a651d3b2b3cba3ba28d5361db348801;
  key_P := 0xe2e3a9f56fd222209557d001d051e32eec929228a8beb5049312f02bca9db975207d043043887a651cf4cb51085ae4d08eeefca58450e795d1cd54bf0bef3317514ac6031dd2cab1fa27b5fcecd6a8a4cece1b8ac0a0d5303831fb1d8f87a53d133284e95071e18ccf226bd625cc9ad76c133bd10ab35fd02d50313a1b81df19;
  key_Q := 0xddf5c89da992aaf5cc848665c486c8af3b39d1dc4758b0335002a119fe43f362bfac38b8e027839a55afafcfc541b95a2ccca8c88b6c300b2ba411508fc146d8809e500b9725a8d7ad601a5e58b8c07945f7bfbdbc701fd7416c8b785d21295cf5ea671615b037bddef05bfeb13a0f764a62a29a44cf2fbe9e2c4e2ee1f6ebc1;
  key_DP := 0xcada45805cc38123a4a26824d6fdffa25a7d0914351a9c79448d7011970bc15e48f7bd20f1a039dde12fb3fff4fa5f0d605da7a0cc561157cfc646f8b050e25afca15fbc3593db0998e09c434ff4f3beb5ef6c8c7780d45a5243cd82366b4e7ef684fa74272a4a403c8947e4a4d2f3b59ab8ef880c8b2724d6fe95a4a0275331;
  key_DQ := 0xa8974ed94a7b07f6097143f03ab531ebbfadac5487b0baad4f01a042711a45dce4bfb899dc50c72a4c19550e18c35239473bf09bdb22c2df4937a69b2d85ddfd06bcb90a04b56b28df1cd70a80935c4701392c5fbea8dfd68d701803c5a1319cd58144e9c67181f56b47e068754f277d6f04ba8338eeb252342c6cfa39526741;
  key_QP := 0x40b1a3d8a5477a64283536bb3103865cb85629649d3b494b9261a6fbc9ff35a5acddc3e3a3a68a967a93f3d90c72092f34ad1b16eb33b9930ed66272792474d9bb5b7094bc0740040b1077c824be31ffdff468feb6f43d689abcebac35cf888357695743402505ec6901503bd2001e9ca433fe618e8970cc96b971f60252ef11 |}.
Definition key130 : rsa_key := {|
  key_N := 0x26862226fc7b0a68ce623a19d008c18bd;
  key_E := 0x10001;
  key_D := 0x17bf782e305669043419822b0d57d241;
  key_P := 0x18fdfa4bc2b98b3f1;
  key_Q := 0x18a9c2aa5dfe9cd8d;
  key_DP := 0xa20fd0d3169437f1;
  key_DQ := 0xe99f2b60a90032c1;
  key_QP := 0x185cae6c853a738e7 |}.
