*.vo
*.vos
*.vok
*.glob
*.aux
.lia.cache
.nia.cache
.coqdeps.d
.Makefile.d
rocq/Makefile
rocq/Makefile.conf
CoqMakefile*
__pycache__
