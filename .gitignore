.lia.cache
.nra.cache
.nia.cache
*.vio
.coqdeps.d
.Makefile.coq.d
