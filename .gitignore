rocq/Makefile
rocq/Makefile.conf
rocq/.Makefile.d
*.vo
*.vok
*.vos
*.glob
*.aux
.*.aux
.lia.cache
.nia.cache
.nra.cache
__pycache__/
